{
 "claims": [
  {
   "property": "C01",
   "status": "proved",
   "theorems": [
    "C01_gcf_offset_mean"
   ],
   "note": "For every arithmetic, hence for doubles too."
  },
  {
   "property": "C02",
   "status": "proved",
   "theorems": [
    "C02_acf_mean",
    "C02_acf_variance"
   ],
   "note": "Pair coverage for every arithmetic; variance at lag 0 over the reals."
  },
  {
   "property": "C03",
   "status": "partial",
   "theorems": [
    "C03_gcf_mean_partial",
    "C03_gcf_all_pairs_refuted"
   ],
   "note": "REFUTED as stated. gcf drops every pair ending on the last frame; the partial theorem states the exact set of pairs used."
  },
  {
   "property": "C04",
   "status": "proved",
   "theorems": [
    "C04_setup_t_grid",
    "C04_setup_t_grid_total",
    "C04_requested_steps"
   ],
   "note": "For every arithmetic; the rounding of requested times is characterised over the reals."
  },
  {
   "property": "C05",
   "status": "partial",
   "theorems": [
    "C05_periodic_grid_partial",
    "C05_periodic_grid_refuted"
   ],
   "note": "REFUTED as stated. False when adjust_skip returns 1 for block_size > 1 (more origins requested than blocks); true whenever skip <> 1."
  },
  {
   "property": "C06",
   "status": "partial",
   "theorems": [
    "C06_skip_range",
    "C06_skip_multiple_partial",
    "C06_skip_multiple_refuted",
    "C06_all_origins",
    "C06_single_origin",
    "C06_zero_rejected",
    "C06_accepted"
   ],
   "note": "REFUTED as stated. Range [1, frames] holds for every arithmetic. Multiple of the block size fails when more origins than blocks are requested (skip 0 becomes 1)."
  },
  {
   "property": "C07",
   "status": "partial",
   "theorems": [
    "C07_origins_bounds_partial",
    "C07_origins_exact_partial",
    "C07_origins_refuted"
   ],
   "note": "REFUTED as stated. Between n and 2n-1 origins are used; exact when n divides the number of frames."
  },
  {
   "property": "C08",
   "status": "partial",
   "theorems": [
    "C08_fraction_strings_rejected_refuted",
    "C08_fraction_refuted",
    "C08_integer_strings_partial"
   ],
   "note": "REFUTED as stated. Every string 0.ddd raises ValueError because int() is applied to it; integer strings work."
  },
  {
   "property": "C09",
   "status": "partial",
   "theorems": [
    "C09_linear_grid_count",
    "C09_linear_grid_spacing_partial",
    "C09_overshoot_refuted",
    "C09_undershoot_refuted"
   ],
   "note": "REFUTED as stated. Proved over the reals for both forms. In doubles the float-spacing form can overshoot the upper end or miss a whole step."
  },
  {
   "property": "C10",
   "status": "proved",
   "theorems": [
    "C10_logx_grid_positive"
   ],
   "note": "Real powers as Rpower."
  },
  {
   "property": "C11",
   "status": "partial",
   "theorems": [
    "C11_logx_grid_zero_partial",
    "C11_logx_grid_zero_refuted"
   ],
   "note": "REFUTED as stated. The last entry is x2-1 instead of x2, and for x2 < 1 all entries but the first are negative; order and range [0, x2-1] proved for x2 >= 1."
  },
  {
   "property": "C12",
   "status": "proved",
   "theorems": [
    "C12_feqc_root",
    "C12_feqc_no_exception"
   ],
   "note": "Over the reals."
  },
  {
   "property": "C13",
   "status": "partial",
   "theorems": [
    "C13_feqc_complete_partial",
    "C13_feqc_start_refuted",
    "C13_feqc_touch_refuted"
   ],
   "note": "REFUTED as stated. feqc returns (None, None) instead of raising, misses a target attained at the first point and a target touched without crossing; None is returned exactly when there is no strict crossing."
  },
  {
   "property": "C14",
   "status": "proved",
   "theorems": [
    "C14_ifabsmm"
   ],
   "note": "Over the reals."
  },
  {
   "property": "C15",
   "status": "proved",
   "theorems": [
    "C15_linear_fit_optimal",
    "C15_linear_fit_exact"
   ],
   "note": "Over the reals; includes the usual formulas of the standard errors."
  },
  {
   "property": "C16",
   "status": "partial",
   "theorems": [
    "C16_linear_fit_total_partial",
    "C16_linear_fit_raises_refuted"
   ],
   "note": "REFUTED as stated. True over the reals; in doubles three points on a line raise ValueError."
  },
  {
   "property": "C17",
   "status": "proved",
   "theorems": [
    "C17_msd_average",
    "C17_msd_nonnegative",
    "C17_msd_zero_at_zero",
    "C17_msd_translation",
    "C17_msd_ballistic"
   ],
   "note": "Over the reals; exact set of averaged pairs for every grid, norigins and offset option."
  },
  {
   "property": "C18",
   "status": "proved",
   "theorems": [
    "C18_fix_cm",
    "C18_fix_cm_drift"
   ],
   "note": "Per frame, over the reals; relative positions are kept."
  },
  {
   "property": "C19",
   "status": "partial",
   "theorems": [
    "C19_self_overlap",
    "C19_collective_overlap",
    "C19_collective_ge_self_partial",
    "C19_collective_ge_self_refuted"
   ],
   "note": "REFUTED as stated. Bounds, normalisation and the exact average are proved for both classes. Collective >= self holds when both see the same coordinates; it fails at class level because SelfOverlap uses unfolded and CollectiveOverlap folded positions."
  },
  {
   "property": "C20",
   "status": "proved",
   "theorems": [
    "C20_non_gaussian"
   ],
   "note": "Value 0 at time 0, exact formula and lower bound elsewhere, over the reals."
  },
  {
   "property": "C21",
   "status": "proved",
   "theorems": [
    "C21_chi4_variance",
    "C21_chi4_sign"
   ],
   "note": "Exact value for every grid point; nonnegative; zero at time zero."
  },
  {
   "property": "C22",
   "status": "partial",
   "theorems": [
    "C22_chi4_origins_partial",
    "C22_chi4_all_origins_refuted"
   ],
   "note": "REFUTED as stated. The last admissible origin is never used; the partial theorem gives the exact set of origins used."
  },
  {
   "property": "C23",
   "status": "partial",
   "theorems": [
    "C23_vacf_average_partial",
    "C23_vacf_norigins_refuted",
    "C23_sacf_norigins_refuted",
    "C23_vacf_no_grid_refuted"
   ],
   "note": "REFUTED as stated. norigins is ignored (block_size is used as interval) and the default grid raises TypeError."
  },
  {
   "property": "C24",
   "status": "proved",
   "theorems": [
    "C24_python_minimum_image",
    "C24_fortran_minimum_image",
    "C24_folded_minimum_image"
   ],
   "note": "Python kernel for all positions; Fortran kernels when every coordinate difference is within 3/2 of the side, hence for folded positions. Exact arithmetic."
  },
  {
   "property": "C25",
   "status": "partial",
   "theorems": [
    "C25_fortran_exact_condition_partial",
    "C25_fortran_unfolded_refuted"
   ],
   "note": "REFUTED as stated. One Fortran wrap shifts by one side only: the distance is the minimum-image one exactly when all coordinate differences are within 3/2 of the side."
  },
  {
   "property": "C26",
   "status": "proved",
   "theorems": [
    "C26_newton_counts_once",
    "C26_newton_counts_once_default",
    "C26_distinct_counts_once",
    "C26_newton_total",
    "C26_distinct_total",
    "C26_number_of_pairs"
   ],
   "note": "For every arithmetic, every distance kernel, every batch size; totals over the reals for increasing edges."
  },
  {
   "property": "C27",
   "status": "partial",
   "theorems": [
    "C27_unfiltered_partial",
    "C27_partial_like_partial",
    "C27_partial_unlike_partial",
    "C27_one_condition_refuted",
    "C27_two_conditions_partial"
   ],
   "note": "REFUTED as stated. Filter with a single condition on a two-body correlation pairs the selected particles with all particles, as two distinct groups, so each selected particle is counted as its own neighbour in the first bin (exact excess given). No filter and the Partial filters count distinct particles only."
  },
  {
   "property": "C28",
   "status": "partial",
   "theorems": [
    "C28_coordination_numbers",
    "C28_symmetric",
    "C28_composition_partial",
    "C28_composition_absent_species_refuted"
   ],
   "note": "REFUTED as stated. Coordination numbers and symmetry proved for non-empty groups in every frame (any skip, any grid with increasing edges). The composition rule is proved when each species is present in every frame and refuted otherwise: histograms are averaged over non-empty frames, numbers over all frames."
  },
  {
   "property": "C29",
   "status": "partial",
   "theorems": [
    "C29_shell_volume_partial",
    "C29_shell_volume_odd_refuted"
   ],
   "note": "REFUTED as stated. Right for d = 3 and all even d, wrong for every shell in every other odd d."
  },
  {
   "property": "C30",
   "status": "proved",
   "theorems": [
    "C30_pairs_once",
    "C30_ordered_pairs_once"
   ],
   "note": "One group and two groups, exact arithmetic, 2 and 3 dimensions, any periodic flags, positions in the half-open cell [-L/2, L/2). Examples show that fewer than three subcells give duplicates and that +L/2 raises KeyError."
  },
  {
   "property": "C31",
   "status": "partial",
   "theorems": [
    "C31_refuted",
    "C31_groups_refuted",
    "C31_partial",
    "C31_first_call_only"
   ],
   "note": "REFUTED as stated. The geometry of the first call is kept. Holds in any arithmetic when the first call had the same cell, periodicity and effective newton flag."
  },
  {
   "property": "C32",
   "status": "partial",
   "theorems": [
    "C32_refuted",
    "C32_partial"
   ],
   "note": "REFUTED as stated. Pairs in the same subcell are listed once in total; all other neighbour pairs are listed in both lists."
  },
  {
   "property": "C33",
   "status": "partial",
   "theorems": [
    "C33_self_in_bounds_partial",
    "C33_distinct_in_bounds_partial",
    "C33_neighbors_in_bounds_partial",
    "C33_double_out_of_bounds_refuted",
    "C33_neighbors_short_grid_refuted"
   ],
   "note": "REFUTED as stated. Proved in exact arithmetic for the self and distinct kernels; refuted in doubles (d < dr*n passes but floor(d/dr) = n) and, even exactly, for the neighbour-list kernels when a listed neighbour lies beyond the user's grid."
  },
  {
   "property": "C34",
   "status": "partial",
   "theorems": [
    "C34_fast_legacy_partial",
    "C34_constant_number",
    "C34_all_frames",
    "C34_varying_number_refuted"
   ],
   "note": "REFUTED as stated. Equality of the returned grid and values in exact arithmetic, for folded positions and the default grid, when the mean number of particles over the frames used equals that over all frames (constant numbers, or every frame used); refuted otherwise."
  },
  {
   "property": "C35",
   "status": "partial",
   "theorems": [
    "C35_angles",
    "C35_partial",
    "C35_refuted",
    "C35_cosine"
   ],
   "note": "REFUTED as stated. Angles from the last grid point m*dtheta to 180 degrees are dropped: a straight chain gives an all-zero (0/0) distribution with the default grid. Proved in exact arithmetic: the recorded angles are the bond angles, each bin holds its share of the angles below m*dtheta, and the distribution integrates to 1 if there is one such angle. At most 50 neighbours per particle assumed (fixed buffer)."
  },
  {
   "property": "C36",
   "status": "proved",
   "theorems": [
    "C36_table",
    "C36_safe"
   ],
   "note": "Over the reals, for any initial content of the uninitialised array. The 'safe' variant is shown to give the same table."
  },
  {
   "property": "C37",
   "status": "proved",
   "theorems": [
    "C37_shells",
    "C37_disjoint",
    "C37_complete"
   ],
   "note": "Over the reals, for every cell in 2 and 3 dimensions: exact description of every shell after any widening; disjointness; indices inside the table; completeness when no widening is needed."
  },
  {
   "property": "C38",
   "status": "proved",
   "theorems": [
    "C38_terminates",
    "C38_setup"
   ],
   "note": "Proved over the reals for every positive cell, every non-empty k grid in any order and of any sign, and every dk > 0 (no bound on the number of passes; CPython's recursion limit is the parameter fuel). Also that the whole set-up succeeds."
  },
  {
   "property": "C39",
   "status": "proved",
   "theorems": [
    "C39_decimation"
   ],
   "note": "For every sampler that returns the requested number of entries at distinct positions (random.sample is an oracle); independence from the generator state is by the explicit seed."
  },
  {
   "property": "C40",
   "status": "proved",
   "theorems": [
    "C40_copy",
    "C40_between"
   ],
   "note": "For every cell and all lists of lattice wave-vectors, over the reals (exact rounding)."
  },
  {
   "property": "C41",
   "status": "partial",
   "theorems": [
    "C41_partial",
    "C41_refuted"
   ],
   "note": "REFUTED as stated. Assigning (2 k0, 0, ..) alone is out of the table in every cell. The partial theorem gives the exact condition."
  },
  {
   "property": "C42",
   "status": "partial",
   "theorems": [
    "C42_refuted",
    "C42_partial"
   ],
   "note": "REFUTED as stated. The caller's list is aliased and overwritten by mean norms; a second object given the same list selects other vectors (doubles). The partial theorem covers unaliased or absent grids."
  },
  {
   "property": "C43",
   "status": "proved",
   "theorems": [
    "C43_value",
    "C43_selected",
    "C43_assigned",
    "C43_nonneg",
    "C43_translation",
    "C43_one",
    "C43_bound"
   ],
   "note": "Constant cell, over the reals; value, nonnegativity, translation invariance (a displacement per frame, also for cross terms), 1 for one particle, bound N. Wave-vectors selected by the code are shown usable. The numerator averages over the frames used and the particle number over all frames."
  },
  {
   "property": "C44",
   "status": "partial",
   "theorems": [
    "C44_sum_rule_partial",
    "C44_symmetric_partial",
    "C44_other_dims_refuted"
   ],
   "note": "REFUTED as stated. Any number of species in 2 and 3 dimensions, each present in every frame. In other dimensions (wave-vectors given by the user) the cross branch multiplies twice by the first exponential and the sum rule fails."
  },
  {
   "property": "C45",
   "status": "partial",
   "theorems": [
    "C45_refuted",
    "C45_partial",
    "C45_two_dimensions"
   ],
   "note": "REFUTED as stated. The Fortran kernel gets 0-based indices: it evaluates S at wave-vectors one less in every component; 0 versus 2 for two particles. In 2 dimensions it raises."
  },
  {
   "property": "C46",
   "status": "proved",
   "theorems": [
    "C46_value",
    "C46_bounds",
    "C46_normalized"
   ],
   "note": "Legacy and Fortran kernels, over the reals, for every block size and every lookup table size: the value is the mean cosine over vectors, admitted pairs and particles; bounds, value 1 at t=0, fast = legacy, and the in-place normalisation (which divides by an already normalised first entry) changes nothing because the grid then contains t=0. The same particles in every frame are assumed (numpy cannot stack them otherwise)."
  },
  {
   "property": "C47",
   "status": "partial",
   "theorems": [
    "C47_value_partial",
    "C47_normalized_partial",
    "C47_start_partial",
    "C47_one_dimension_refuted",
    "C47_other_dimensions_partial",
    "C47_one_dimension_partial",
    "C47_four_dimensions_refuted"
   ],
   "note": "REFUTED as stated. Proved for two and three dimensions, one or two groups. In one dimension (user wave-vectors) only the real part of the density is kept and F(k,0) is not N S(k): C47_one_dimension_refuted. In other dimensions C47_other_dimensions_partial says exactly what is averaged instead (vectors without repetition): the product of the real parts of the densities, at wave-vectors that pile up because the code multiplies in place into its own table; C47_four_dimensions_refuted is a case where the value has the wrong sign."
  },
  {
   "property": "C48",
   "status": "partial",
   "theorems": [
    "C48_start_partial",
    "C48_refuted"
   ],
   "note": "REFUTED as stated. F_AB = F_BA only at t=0 (C48_start_partial). The counterexample has one A and one B particle: F_AB(k,1) = -1 and F_BA(k,1) = 1, so Partial, which copies one to the other, is wrong for F(k,t)."
  },
  {
   "property": "C49",
   "status": "partial",
   "theorems": [
    "C49_refuted",
    "C49_partial",
    "C49_all_frames",
    "C49_sound"
   ],
   "note": "REFUTED as stated. With the default of one test only the last frame is compared. Exact description of the frames compared; exact answer when tests <= 0 or 2*tests > frames; a positive answer is always right."
  },
  {
   "property": "C50",
   "status": "proved",
   "theorems": [
    "C50_filter_species",
    "C50_filter_partition"
   ],
   "note": "filter_species keeps exactly the particles of the species, in order, and does not touch its argument."
  },
  {
   "property": "C51",
   "status": "partial",
   "theorems": [
    "C51_number_of_filters_partial",
    "C51_number_of_filters_refuted",
    "C51_filters_used_partial"
   ],
   "note": "REFUTED as stated. The test is len > nbodies: exactly nbodies + 1 filters are accepted, for every sequence of calls (C51_number_of_filters_partial), and the last one is ignored."
  },
  {
   "property": "C52",
   "status": "partial",
   "theorems": [
    "C52_one_body",
    "C52_two_bodies",
    "C52_gr",
    "C52_sk",
    "C52_fkt_refuted",
    "C52_repeated_species_refuted"
   ],
   "note": "REFUTED as stated. Generic in the correlation class, for every list of distinct species: one body, and two bodies when the class is symmetric or not declared so. Instances for g(r) and S(k). F(k,t) is declared symmetric and is not, so its (B, A) entry is wrong; a species listed twice is computed twice (see C53)."
  },
  {
   "property": "C53",
   "status": "partial",
   "theorems": [
    "C53_msd_repeat_refuted",
    "C53_grid_repeat_refuted",
    "C53_structure_factor_partial",
    "C53_self_scattering_repeat_refuted",
    "C53_scattering_repeat_refuted",
    "C53_chi4_repeat_refuted",
    "C53_gr_fast_repeat_refuted",
    "C53_gr_legacy_partial"
   ],
   "note": "REFUTED as stated. compute() appends to the arrays of the previous call. For every arithmetic and trajectory a second compute() of the MSD, the overlaps and alpha2 raises once the first gave a non-empty grid (Unfolded is assumed to keep the number of frames); the same for F(k,t), F_s(k,t) with any filters. chi4 succeeds but returns twice as many values as times (any arithmetic). The compiled g(r) drops its last point at each call until it raises; the reference g(r) keeps grid and values except possibly the last one. S(k) at fixed cell gives the same result when skip divides the number of frames."
  },
  {
   "property": "C54",
   "status": "proved",
   "theorems": [
    "C54_one_variable",
    "C54_two_variables",
    "C54_written"
   ],
   "note": "Text of the rows proved for one and two variables; inconsistent lengths raise instead of mispairing; consistent data is always written. The rows are the strings printed with %g (M_Text)."
  },
  {
   "property": "C55",
   "status": "partial",
   "theorems": [
    "C55_roundtrip_partial",
    "C55_roundtrip_refuted"
   ],
   "note": "REFUTED as stated. Proved for one-variable functions with at least two points: every number is restored with relative error at most 5e-6, sign kept, zero, inf and nan exactly. Fails for all one-point functions (grid and value become two numbers) and all two-variable functions (nothing is restored)."
  },
  {
   "property": "C56",
   "status": "proved",
   "theorems": [
    "C56_single",
    "C56_effect",
    "C56_partial_correlations"
   ],
   "note": "Proved for single correlations and Partial, with a path; with output_path None the test raises TypeError. Modification times are integers, the trajectory file exists."
  },
  {
   "property": "C57",
   "status": "partial",
   "theorems": [
    "C57_crash_refuted",
    "C57_crash_partial"
   ],
   "note": "REFUTED as stated. Fails for every one-variable result of more than two points: killed after k >= 2 rows, the next update run returns the k rows. Proved: killed before opening changes nothing, killed before the first row makes the next update run raise, no other file is affected, and partial correlations are recomputed as long as one file is missing or not newer."
  },
  {
   "property": "C58",
   "status": "partial",
   "theorems": [
    "C58_directory",
    "C58_default_path_partial",
    "C58_distinct_partial",
    "C58_distinct_refuted",
    "C58_default_path_refuted",
    "C58_blanks"
   ],
   "note": "REFUTED as stated. Proved for all strings: the directory part is unchanged; long names and descriptions of tags bring no blanks into the path (C58_blanks). Proved for file names, symbols and tags without doubled or terminal punctuation: the default path is <trajectory>.pp.<symbol>[.<tag>], and different trajectories, symbols or tags give different files. Fails in general: run__1 and run_1, tags A and A_, species Na,Cl- and Na-,Cl share files."
  },
  {
   "property": "C59",
   "status": "partial",
   "theorems": [
    "C59_every_file_partial",
    "C59_total_or_partial_partial",
    "C59_every_file_refuted"
   ],
   "note": "REFUTED as stated. Proved for gr, msd, vacf, alpha2, qst, qt, ba, and sk unless a weight file is used with several trajectories; exact conditions proved for fkt, fskt and chi4qs. Fails for ik (first file only, nothing when the radius file is given), fkt and fskt of mixtures with no_partial or filter, chi4qs of one species or with fast, sk with a weight file and two trajectories."
  },
  {
   "property": "C60",
   "status": "partial",
   "theorems": [
    "C60_filter_partial",
    "C60_update",
    "C60_same_arguments_partial",
    "C60_options_refuted"
   ],
   "note": "REFUTED as stated. Proved: gr, sk and ba run no unfiltered calculation when a filter is given; every job gets update and norigins; total and partial functions get the same arguments in all functions but msd. Fails: msd drops fix_cm for the partial functions, the dynamical functions ignore the filter."
  },
  {
   "property": "C61",
   "status": "partial",
   "theorems": [
    "C61_subtract_mean",
    "C61_one_group_partial",
    "C61_two_groups_partial",
    "C61_integer_refuted",
    "C61_rounding_partial",
    "C61_in_doubles_partial"
   ],
   "note": "REFUTED for integer-valued fields: TypeError (the float mean is subtracted in place from an integer array). Proved over R: for float fields the weights of both groups are the values of the particles kept minus one constant per group, with zero mean. In doubles: C61_in_doubles_partial and C61_rounding_partial bound the distance of every weight from the exact one, in any order of the sum; the weights then have a mean of the size of that bound, not zero."
  },
  {
   "property": "C62",
   "status": "proved",
   "theorems": [
    "C62_susceptibility",
    "C62_defined"
   ],
   "note": "Proved over the reals for any per-origin results; which origins are used is part of the theorem."
  },
  {
   "property": "C63",
   "status": "partial",
   "theorems": [
    "C63_tau_partial",
    "C63_tau_refuted"
   ],
   "note": "REFUTED as stated. Proved over the reals for positive initial values: the time returned is on the line joining the data at 1/e of the initial value and the line is not below it earlier (strictly above if no sample equals it); None if no sample is below. Fails if a sample is exactly 1/e of the first value: a function that touches it has no relaxation time."
  },
  {
   "property": "C64",
   "status": "partial",
   "theorems": [
    "C64_fix_cm_refuted",
    "C64_fix_cm_partial",
    "C64_two_filters_refuted"
   ],
   "note": "REFUTED as stated. With two filters the option has no effect, for all inputs; the second part of the refutation exhibits arrays that differ from those of one filter. With at most one filter the option is honoured (C64_fix_cm_partial). Unfolded and fold are external functions."
  },
  {
   "property": "C65",
   "status": "partial",
   "theorems": [
    "C65_fraction_bounds_partial",
    "C65_fraction_refuted"
   ],
   "note": "REFUTED as stated. All frames are used for every fraction above 1/2; bounds x*N <= m < 2*x*N+1 proved."
  },
  {
   "property": "C66",
   "status": "partial",
   "theorems": [
    "C66_optimized_agrees_partial",
    "C66_optimized_total_partial",
    "C66_optimized_refuted"
   ],
   "note": "REFUTED as stated. Same result whenever the optimised version returns; it raises ZeroDivisionError exactly when some grid point has no origin, where the reference returns 0."
  },
  {
   "property": "C67",
   "status": "partial",
   "theorems": [
    "C67_refuted",
    "C67_partial"
   ],
   "note": "REFUTED as stated. The last bin kept, whose center is at most rmax but whose upper edge is beyond it, misses pairs. For a constant cell all bins ending at rmax or before agree exactly. A cell that changes is not covered (see C31)."
  },
  {
   "property": "C68",
   "status": "proved",
   "theorems": [
    "C68_variance",
    "C68_nonneg"
   ],
   "note": "Constant cell, over the reals, one group."
  },
  {
   "property": "C69",
   "status": "proved",
   "theorems": [
    "C69_structure_factor",
    "C69_self",
    "C69_collective"
   ],
   "note": "Over the reals; every particle of every frame may be displaced by its own whole number of sides. F(k,t) in two and three dimensions."
  },
  {
   "property": "C70",
   "status": "proved",
   "theorems": [
    "C70_msd",
    "C70_alpha2",
    "C70_vacf",
    "C70_self_overlap",
    "C70_chi4",
    "C70_collective_overlap",
    "C70_self_scattering",
    "C70_scattering",
    "C70_structure_factor",
    "C70_gr",
    "C70_stress"
   ],
   "note": "Theorems per function; MSD, alpha2, VACF, F_s, F, S, g(r) and the stress autocorrelation over the reals, overlaps and chi4 for any arithmetic including doubles. Collective functions allow a different permutation in each frame. g(r) of the reference class."
  },
  {
   "property": "C71",
   "status": "proved",
   "theorems": [
    "C71_msd",
    "C71_alpha2",
    "C71_self_overlap",
    "C71_chi4",
    "C71_collective_overlap",
    "C71_vacf"
   ],
   "note": "Stated for any map that preserves the distances between the positions that occur, or the scalar products of the velocities."
  },
  {
   "property": "C72",
   "status": "proved",
   "theorems": [
    "C72_msd",
    "C72_alpha2",
    "C72_self_overlap",
    "C72_chi4",
    "C72_vacf",
    "C72_gr",
    "C72_structure_factor",
    "C72_scattering",
    "C72_self_scattering",
    "C72_collective_overlap"
   ],
   "note": "Over the reals; g(r) of the reference class with the cell volume scaled accordingly; Fourier-space functions with the same integer vectors in the scaled cell."
  },
  {
   "property": "C73",
   "status": "proved",
   "theorems": [
    "C73_msd",
    "C73_overlap_alpha2",
    "C73_chi4",
    "C73_vacf",
    "C73_chi4_optimized",
    "C73_stress",
    "C73_scattering"
   ],
   "note": "For every arithmetic, doubles included; the scattering functions over the reals."
  },
  {
   "property": "C74",
   "status": "proved",
   "theorems": [
    "C74_msd",
    "C74_overlap_alpha2",
    "C74_vacf",
    "C74_stress",
    "C74_chi4",
    "C74_scattering",
    "C74_msd_default"
   ],
   "note": "Over the reals, with an explicit time grid; MSD also with its default grid. The default grids of the scattering functions are not covered: they are not homogeneous (C11)."
  },
  {
   "property": "C75",
   "status": "proved",
   "theorems": [
    "C75_gr"
   ],
   "note": "Reference class, over the reals. The compiled kernel needs folded positions: see C25."
  },
  {
   "property": "C76",
   "status": "partial",
   "theorems": [
    "C76_alpha2_default_partial",
    "C76_msd_half_refuted",
    "C76_msd_rmax_partial",
    "C76_msd_rmax_refuted",
    "C76_overlap_default_partial",
    "C76_overlap_short_refuted"
   ],
   "note": "REFUTED as stated. MSD goes to the whole duration instead of half; with rmax the grid ends where a displacement linear in time would reach rmax (proved), too early for faster motion; overlap functions and chi4 stop at 3/4 of the duration minus one unit of time and give a single row for trajectories shorter than 4/3; alpha2 is right. The last requested times are characterised over the reals."
  },
  {
   "property": "C77",
   "status": "partial",
   "theorems": [
    "C77_diffusion_partial",
    "C77_diffusion_exact_partial",
    "C77_msd_analyzed_partial",
    "C77_linear_msd_refuted"
   ],
   "note": "REFUTED as stated. Over the reals: characterisation of tau_D and D, exactness for diffusive data, totality on every computed MSD. In doubles the fit raises ValueError on exactly linear data, so that do() fails and writes nothing."
  },
  {
   "property": "C78",
   "status": "proved",
   "theorems": [
    "C78_peak",
    "C78_alpha2_peak",
    "C78_chi4_peak"
   ],
   "note": "Over the reals, end to end from the calculation of alpha2 and chi4."
  },
  {
   "property": "C79",
   "status": "partial",
   "theorems": [
    "C79_cutoff_partial",
    "C79_no_minimum_refuted",
    "C79_one_pair_refuted"
   ],
   "note": "REFUTED as stated. The first minimum when g(r) rises again after its peak; IndexError otherwise, which makes the whole calculation fail."
  },
  {
   "property": "C80",
   "status": "partial",
   "theorems": [
    "C80_value_partial",
    "C80_nonneg_partial",
    "C80_translation_partial",
    "C80_wave_number_refuted"
   ],
   "note": "REFUTED as stated. Over the reals. The transform of the sphere is evaluated at the norm of the table indices of the wave-vector, not at the norm of the wave-vector; the formula actually computed, its sign and its invariance under translations are proved."
  },
  {
   "property": "C81",
   "status": "partial",
   "theorems": [
    "C81_always_fails_refuted",
    "C81_attribute_refuted",
    "C81_empty_partial"
   ],
   "note": "REFUTED as stated. S4ktOverlap reads an attribute that no class defines: it fails for every non-empty time grid."
  },
  {
   "property": "C82",
   "status": "proved",
   "theorems": [
    "C82_bounded",
    "C82_time_zero",
    "C82_constant",
    "C82_reversal"
   ],
   "note": "Over the reals."
  },
  {
   "property": "C83",
   "status": "partial",
   "theorems": [
    "C83_average_partial",
    "C83_bounds_partial",
    "C83_two_dimensions_refuted"
   ],
   "note": "REFUTED as stated. Over the reals, in three dimensions; in two dimensions every calculation fails with IndexError."
  },
  {
   "property": "C84",
   "status": "partial",
   "theorems": [
    "C84_one_body_partial",
    "C84_two_body",
    "C84_tag_characters_partial",
    "C84_tag_refuted",
    "C84_one_body_two_conditions_refuted",
    "C84_comma_refuted",
    "C84_twice_refuted"
   ],
   "note": "REFUTED: (i) conditions that keep different particles can have the same tag and output file ('mass or charge', 'mass + charge'); (ii) two conditions on a one-body correlation keep every particle; (iii) a comma inside a condition splits it; (iv) a second Filter on a one-body correlation changes the tag only. Proved for every meaning of eval: the particles kept by one condition (one-body), the groups of two-body correlations, the ValueError with three conditions, the characters of the tag."
  },
  {
   "property": "C85",
   "status": "partial",
   "theorems": [
    "C85_steps_checked",
    "C85_own_field",
    "C85_other_field_partial",
    "C85_missing_particles_refuted",
    "C85_shared_trajectory_refuted"
   ],
   "note": "REFUTED: a weight trajectory with fewer particles is accepted and the remaining particles keep their own values; a weight trajectory given to one correlation changes the weights of another one on the same trajectory. Proved: own field; ValueError when the steps differ; field of the particle at the same place when there are enough particles."
  },
  {
   "property": "C86",
   "status": "partial",
   "theorems": [
    "C86_plain_partial",
    "C86_all_fixed_partial",
    "C86_next_is_fixed_refuted",
    "C86_cache_refuted"
   ],
   "note": "REFUTED: with fix_cm on a trajectory with position_unfolded the loop changes the particles in place, so a later correlation without fix_cm (e.g. the partial MSDs of api.msd) is computed with the center of mass fixed if and only if the frames are kept. Proved: nothing changes if no correlation uses fix_cm (any arithmetic), or all of them do (over R). Assumed: a trajectory that keeps its frames returns the same particles each time; the decorator Unfolded (atooms) does not change those of the trajectory it decorates."
  },
  {
   "property": "C87",
   "status": "partial",
   "theorems": [
    "C87_value_partial",
    "C87_reported_partial",
    "C87_kmin_partial",
    "C87_default_grid_refuted",
    "C87_drift_refuted",
    "C87_assigned_refuted",
    "C87_assigned_fails_refuted",
    "C87_constant",
    "C87_succeeds"
   ],
   "note": "REFUTED as stated. Proved: with cells of positive sides that change along the trajectory the number of shells is the same in all frames, the vectors used in each frame are wave-vectors of the cell of that frame, and each value is the average over the frames used and the vectors the shell has in them of the product of the densities over sqrt(N_0 N_1) (C87_value_partial); which k are reported (C87_reported_partial); with kmin > 0 and no user grid all vectors of a shell lie in the shell of the same nominal k in all frames (C87_kmin_partial); the selection always succeeds (C87_succeeds); a constant cell keeps the vectors of the first frame (C87_constant). Refuted: with the default grid the shell reported at k=1 contains vectors of modulus 2 (C87_default_grid_refuted); a user grid is overwritten at every frame and drifts away from the requested k (C87_drift_refuted); assigned wave-vectors are dropped from the second frame on (C87_assigned_refuted), and the calculation fails if there are fewer assigned shells than ksamples (C87_assigned_fails_refuted)."
  },
  {
   "property": "C88",
   "status": "proved",
   "theorems": [
    "C88_defined",
    "C88_chi4_defined",
    "C88_user_grid",
    "C88_default_grid"
   ],
   "note": "Over the reals (in doubles int(round()) of an infinite or undefined quotient raises). Stress autocorrelation and F_s/F are covered by C24, C50 and their own theorems."
  },
  {
   "property": "C89",
   "status": "partial",
   "theorems": [
    "C89_legacy",
    "C89_fast",
    "C89_documented_refuted"
   ],
   "note": "REFUTED as stated. Proved for all trajectories with a cell, over the reals, for both implementations (C89_legacy, C89_fast), up to rmax or half the smallest side of the cell of the last frame used, provided that limit is at least dr below the longest distance on the grid (max side * sqrt(ndims)); with linked cells the cell is constant and the bins entirely within rmax are complete. Refuted: the limit is half the side along x of the first frame (C89_documented_refuted)."
  },
  {
   "property": "C90",
   "status": "partial",
   "theorems": [
    "C90_order_partial",
    "C90_order_refuted"
   ],
   "note": "REFUTED as stated. Proved when the cell is the same in all frames (C90_order_partial). Refuted when the volume changes: the volume of the last frame is used for the whole average (C90_order_refuted)."
  },
  {
   "property": "C91",
   "status": "partial",
   "theorems": [
    "C91_open_partial",
    "C91_first_bin_refuted",
    "C91_isolated_partial",
    "C91_isolated_last_refuted",
    "C91_isolated_default_refuted",
    "C91_flags_refuted",
    "C91_mixed_refuted"
   ],
   "note": "REFUTED as stated. Proved for cells that are not periodic in any direction, compiled implementation: all the bins within rmax but the first (C91_open_partial); for systems without cell, all the bins but the last one (C91_isolated_partial). Refuted: the first bin of an open cell is overwritten with the second (C91_first_bin_refuted); without a cell the last point is dropped (C91_isolated_last_refuted), rmax must be given and the pure Python version always fails (C91_isolated_default_refuted); the pure Python version ignores the periodicity flags (C91_flags_refuted); cells periodic along some directions only raise AssertionError (C91_mixed_refuted)."
  },
  {
   "property": "C92",
   "status": "partial",
   "theorems": [
    "C92_uniform_partial",
    "C92_spacing_refuted",
    "C92_fast_partial",
    "C92_fast_start_refuted",
    "C92_fast_last_refuted"
   ],
   "note": "REFUTED as stated. Proved for equally spaced grids, pure Python version: the points reported are the requested ones up to the limit, bins centered at them; the last bin also includes its upper edge and is left out of the value statement (C92_uniform_partial); compiled version on grids dr/2, 3dr/2, ... with periodic cells and no rmax (C92_fast_partial). Refuted: points followed by a gap different from the first are moved (C92_spacing_refuted); the compiled version replaces grids that do not start at half the gap (C92_fast_start_refuted) and drops the last point (C92_fast_last_refuted)."
  },
  {
   "property": "C93",
   "status": "proved",
   "theorems": [
    "C93_recorded",
    "C93_reconstructed",
    "C93_fix_cm",
    "C93_drift",
    "C93_groups"
   ],
   "note": "The unfolding done by atooms itself is an argument of the model (decorators). MSD drift invariance over the reals, with recorded unfolded positions."
  },
  {
   "property": "C94",
   "status": "proved",
   "theorems": [
    "C94_cutoffs",
    "C94_new_species"
   ],
   "note": "Over the reals, for angles below the last grid point and at most fifty neighbours per particle (the rest is refuted in C35 and C33). Species unknown in the first frame: ValueError, for every arithmetic."
  },
  {
   "property": "C95",
   "status": "proved",
   "theorems": [
    "C95_positive",
    "C95_cauchy_schwarz"
   ],
   "note": "Over the reals, for the reference implementation; every species must occur in each frame."
  },
  {
   "property": "C96",
   "status": "partial",
   "theorems": [
    "C96_values",
    "C96_files_partial",
    "C96_variance_refuted",
    "C96_output_path_refuted",
    "C96_description_refuted"
   ],
   "note": "REFUTED as stated. Values over the reals. Files: default paths, neat names, at least two times (a single time is read as two numbers, C55). Refuted: the function called variance is the mean square; the companion files ignore output_path; their titles always say 'the whole system'."
  },
  {
   "property": "C97",
   "status": "partial",
   "theorems": [
    "C97_lines",
    "C97_variables",
    "C97_columns",
    "C97_read_partial",
    "C97_user_comments_refuted",
    "C97_short_name_refuted",
    "C97_susceptibility_refuted"
   ],
   "note": "REFUTED as stated. Texts without newlines; functions of one variable with at least two points for reading back (C55). Refuted for user comments that lack the final newline or the '#', and for Susceptibility, whose empty short name makes write() raise IndexError."
  },
  {
   "property": "C98",
   "status": "proved",
   "theorems": [
    "C98_times_again",
    "C98_msd_again",
    "C98_chi4_again"
   ],
   "note": "Doubles are modelled bit by bit and every operation is shown to be correctly rounded (F64Round, F64Ops). Proved for block-periodic trajectories (overlaps, non-Gaussian parameter and every calculation on a time grid; mean square displacement with all its grids) and for chi4 without that assumption."
  },
  {
   "property": "C99",
   "status": "proved",
   "theorems": [
    "C99_self_overlap",
    "C99_monotone"
   ],
   "note": "Overlaps of the model on spec_float. The thresholds of the second part are between 2^-500 and 2^500 so that a*a neither underflows nor overflows; at most 2^53 particles (pairs of particles for the collective overlap) and pairs of frames."
  },
  {
   "property": "C100",
   "status": "proved",
   "theorems": [
    "C100_msd_accuracy",
    "C100_any_order",
    "C100_msd_sign"
   ],
   "note": "Two versions: sums from left to right as in the model, and (C100_any_order) squared differences of a frame added in any order, as numpy does; the sum over pairs of frames is a Python loop. Coordinates up to 2^400, displacements 0 or at least 2^-400 (automatic if coordinates are 0 or at least 2^-347); at most 2^47 coordinates and 2^48 pairs of frames."
  },
  {
   "property": "C101",
   "status": "proved",
   "theorems": [
    "C101_chi4_accuracy",
    "C101_chi4_zero"
   ],
   "note": "The counts are integers: their sums are exact up to 2^53 and a nonzero variance is at least 1/(2 origins), above the rounding errors as long as frames * N^2 <= 2^49."
  },
  {
   "property": "C102",
   "status": "proved",
   "theorems": [
    "C102_msd",
    "C102_self_overlap",
    "C102_vacf",
    "C102_self_scattering",
    "C102_scattering"
   ],
   "note": "Proved over the reals for MSD (explicit grid or rmax<=0), self overlap, VACF, F_s (both kernels) and F(k,t) before normalisation."
  },
  {
   "property": "C103",
   "status": "proved",
   "theorems": [
    "C103_overlap_msd",
    "C103_scattering_msd",
    "C103_chi4_average",
    "C103_overlap_grows",
    "C103_non_gaussian",
    "C103_single_particle"
   ],
   "note": "Proved over the reals; the bounds hold at every reported time because both functions average over the same pairs of frames."
  },
  {
   "property": "C104",
   "status": "partial",
   "theorems": [
    "C104_whole_blocks_partial",
    "C104_same_steps_partial",
    "C104_skip_partial",
    "C104_skip_frames_partial",
    "C104_negative_partial",
    "C104_negative_refuted"
   ],
   "note": "REFUTED as stated. Partial: negative first/last do not select whole blocks when the number of frames is not a multiple of the block size (C104_negative_refuted); C104_negative_partial is the case of whole blocks. The slicing class of atooms is taken to be Python's slice of the frames."
  },
  {
   "property": "C105",
   "status": "partial",
   "theorems": [
    "C105_rows_partial",
    "C105_loads_partial",
    "C105_load_refuted",
    "C105_file"
   ],
   "note": "REFUTED as stated. Loads exactly when all the relaxation times are known or none is (C105_loads_partial); when some functions do not decay below 1/e the rows have different numbers of columns and loadtxt raises ValueError (C105_load_refuted)."
  },
  {
   "property": "C106",
   "status": "partial",
   "theorems": [
    "C106_results_partial",
    "C106_path_set_partial",
    "C106_output_path_refuted",
    "C106_scattering_refuted",
    "C106_update_refuted",
    "C106_default_name_refuted"
   ],
   "note": "REFUTED as stated. Proved for all functions but the scattering ones, without update (C106_results_partial), and for all functions when output_path is set after construction (C106_path_set_partial). Refuted: the scattering functions raise TypeError after the whole calculation; update=True raises; the argument output_path of the constructor is ignored (no class of the package passes it, but Correlation documents it for subclasses); the default template gives files called None.pp.*."
  },
  {
   "property": "C107",
   "status": "proved",
   "theorems": [
    "C107_file",
    "C107_msd",
    "C107_msd_even",
    "C107_session"
   ],
   "note": "C107_file and C107_session: any calculation of one variable with ordinary names. C107_msd: general pairs; C107_msd_even: regular storage, all origins. numpy sums from left to right (C100_any_order covers any order)."
  },
  {
   "property": "C108",
   "status": "partial",
   "theorems": [
    "C108_again_partial",
    "C108_other_refuted",
    "C108_grid_refuted"
   ],
   "note": "REFUTED as stated. Proved for the same calculation (C108_again_partial). Refuted: any other calculation with the same output file (other time grid, norigins, slice, fix_cm, ...) gets the results of the first (C108_other_refuted, for all calculations; C108_grid_refuted, a case)."
  },
  {
   "property": "C109",
   "status": "partial",
   "theorems": [
    "C109_msd_partial",
    "C109_overlap_partial",
    "C109_alpha2_partial",
    "C109_vacf_partial",
    "C109_chi4_refuted",
    "C109_stress_partial",
    "C109_self_scattering_partial",
    "C109_scattering_partial",
    "C109_origins_refuted"
   ],
   "note": "REFUTED as stated. Proved over the reals with all origins for MSD, overlaps, alpha2, VACF, stress autocorrelation, F_s(k,t) and F(k,t) (for two groups the reversal exchanges them). chi4 leaves out the last origin (C109_chi4_refuted), and with a single origin the result depends on the direction (C109_origins_refuted)."
  },
  {
   "property": "C110",
   "status": "proved",
   "theorems": [
    "C110_lines",
    "C110_shells",
    "C110_vectors"
   ],
   "note": "Lines and vectors for every arithmetic; averages, deviations and numbers of vectors over the reals. The text of the lines (number formats) is not modelled."
  },
  {
   "property": "C111",
   "status": "partial",
   "theorems": [
    "C111_msd",
    "C111_self_overlap",
    "C111_chi4",
    "C111_alpha2_refuted",
    "C111_self_scattering",
    "C111_scattering_partial"
   ],
   "note": "REFUTED as stated. Exact in double precision for msd, self overlap, chi4 (numbers of particles and frames bounded as in C99-C101); scattering functions over the reals, the normalised collective one where the structure factor is not zero. False for alpha2: it is not a number (0/0) at every time but zero (refuted)."
  },
  {
   "property": "C112",
   "status": "partial",
   "theorems": [
    "C112_times_partial",
    "C112_cut",
    "C112_cut_refuted"
   ],
   "note": "REFUTED as stated. Over the reals, for at least two times and a time step not longer than the last time. False for alpha2, qst, qt (and fkt, fskt, same grid): tmax beyond the end of the trajectory is not cut (refuted); the classes then answer with the longest time difference available (C88)."
  },
  {
   "property": "C113",
   "status": "partial",
   "theorems": [
    "C113_neighbors_list",
    "C113_subset_partial",
    "C113_linked_cells",
    "C113_subset_refuted",
    "C113_distinct_refuted"
   ],
   "note": "REFUTED as stated. Proved over the reals for positions in the cell: neighbors_list and neighbors_full (the same code), and neighbors_subset for lists that hold each pair once, e.g. those of linked cells (C113_linked_cells). Refuted: a full list as subset gives every neighbour twice; the two-group routine files the pairs under the indices of the wrong group, or out of bounds. The cutoff is looked up with the species of the particle of lower index first, so that the table has to be symmetric."
  },
  {
   "property": "C114",
   "status": "proved",
   "theorems": [
    "C114_any_order",
    "C114_vacf_accuracy",
    "C114_size",
    "C114_cancellation"
   ],
   "note": "Proved for every summation order (C114_any_order) and for the order of the model (C114_vacf_accuracy); C114_size bounds the average product; C114_cancellation: velocities whose reported autocorrelation is 0 although the exact one is not."
  },
  {
   "property": "C115",
   "status": "proved",
   "theorems": [
    "C115_python",
    "C115_img_dist",
    "C115_fdist",
    "C115_backends"
   ],
   "note": "Proved: Python distances with any order of the sum (C115_python, C115_img_dist) for coordinates up to 2^40 sides apart, Fortran distances for coordinates up to 3/2 sides apart (C115_fdist; further apart the image of the kernel is not the closest one, see C25), agreement of the two (C115_backends). Based on a proof that the square root of spec_float is correctly rounded."
  },
  {
   "property": "C116",
   "status": "proved",
   "theorems": [
    "C116_self",
    "C116_distinct",
    "C116_exact",
    "C116_legacy",
    "C116_legacy_distinct"
   ],
   "note": "Proved for the two Fortran kernels of g(r) (C116_self, C116_distinct: both cumulative counts and single bins) and the two Python histograms (C116_legacy, C116_legacy_distinct); C116_exact: exact histogram and no access beyond the array when no distance is within the error of a multiple of the width (without that premise see C33)."
  },
  {
   "property": "C117",
   "status": "proved",
   "theorems": [
    "C117_any_order",
    "C117_alpha2_accuracy",
    "C117_size"
   ],
   "note": "Double precision, any order of the sums; pairs of identical frames contribute 0 as in the code. Missing: frames between which no particle moves (division by zero) and coordinates outside the stated range."
  },
  {
   "property": "C118",
   "status": "partial",
   "theorems": [
    "C118_options_partial",
    "C118_fast_weights_refuted"
   ],
   "note": "REFUTED as stated. Options reach the jobs; refuted for the fast structure factor, whose result does not depend on the weights nor on the positions of the second group."
  },
  {
   "property": "C119",
   "status": "proved",
   "theorems": [
    "C119_overlap_tau"
   ],
   "note": "Exact arithmetic; the values computed by self_overlap_compute."
  },
  {
   "property": "C120",
   "status": "proved",
   "theorems": [
    "C120_conjugates",
    "C120_table",
    "C120_density",
    "C120_plain"
   ],
   "note": "exp of the library, complex product and sum are parameters with stated error bounds; the textbook product and the sum from left to right are shown to meet them."
  },
  {
   "property": "C121",
   "status": "proved",
   "theorems": [
    "C121_self_accuracy",
    "C121_products",
    "C121_agree",
    "C121_normalised"
   ],
   "note": "Counts below 2^53; wave-vectors, time grid and positions given; the plane-wave error W follows from C120."
  },
  {
   "property": "C122",
   "status": "proved",
   "theorems": [
    "C122_collective_accuracy",
    "C122_products",
    "C122_normalised"
   ],
   "note": "Two and three dimensions (in one dimension see C47: the imaginary part is dropped); wave-vectors, time grid and positions given; the plane-wave error W follows from C120. The bound is absolute: it is relative to N0 N1, not to the value."
  },
  {
   "property": "C123",
   "status": "proved",
   "theorems": [
    "C123_structure_factor_accuracy",
    "C123_operations",
    "C123_empty_shell"
   ],
   "note": "Numpy version, no weights, constant cell, two and three dimensions; wave-vectors and positions given; the plane-wave error W follows from C120. The bound is relative to N0 N1, not to the value."
  },
  {
   "property": "C124",
   "status": "proved",
   "theorems": [
    "C124_values",
    "C124_products",
    "C124_empty_bins"
   ],
   "note": "Backend with histograms of the Fortran kernels, periodic cells (or no cell), two and three dimensions; in other dimensions the shell of odd dimensions is wrong (C29). Powers of numpy are assumed right to 4 roundings (the products of the model are: products_fair); math.pi is proved to be right to one rounding (F64Pi). The histograms themselves are C116."
  },
  {
   "property": "C125",
   "status": "proved",
   "theorems": [
    "C125_values"
   ],
   "note": "Object of the Fortran backend without linked cells (rmax not given), any grid and number of origins; distances within the error of a multiple of the width are excluded by premise (good_frame), since there the count is a matter of rounding (C33, C116). Powers are products; linked cells in doubles are not covered."
  },
  {
   "property": "C126",
   "status": "proved",
   "theorems": [
    "C126_pairs_once",
    "C126_ordered_pairs_once",
    "C126_upper_border",
    "C126_missed"
   ],
   "note": "Pairs of one group (each once, in one of the two directions) and of two groups; positions well inside the cell, cells of 3 to 2^30 cutoffs. C126_upper_border and C126_missed show that neither margin can be dropped."
  },
  {
   "property": "C127",
   "status": "proved",
   "theorems": [
    "C127_values"
   ],
   "note": "rmax given; the decision about linked cells is the one of the code, taken on the first frame. The bins that end within 2^-49 of a side of rmax or beyond are bounded from above only (C67_refuted shows that they do lose pairs). Distances beyond the last bin are excluded with linked cells: the kernel has no range check."
  },
  {
   "property": "C128",
   "status": "proved",
   "theorems": [
    "C128_any_order",
    "C128_sacf_accuracy",
    "C128_size"
   ],
   "note": "Virials, masses and velocities are those handed over by atooms; the error is relative to the value with all signs positive (C128_size: it is the value itself when nothing is negative), which no order of summation can avoid."
  },
  {
   "property": "C129",
   "status": "proved",
   "theorems": [
    "C129_border",
    "C129_used",
    "C129_inner",
    "C129_doubles"
   ],
   "note": "C129_border: exact arithmetic, all states reachable after a first call. C129_inner: what the answer means for neighbours. C129_doubles: same in double precision, with the margin of C126."
  },
  {
   "property": "C130",
   "status": "proved",
   "theorems": [
    "C130_root",
    "C130_relaxation_time"
   ],
   "note": "Proved for the double precision instance of the model of feqc and of its use in analyze. Five roundings of relative 2^-53 and an addition. The example C130_underflow shows that values of 2^-600 around a target of zero are missed, so the lower bound is needed."
  },
  {
   "property": "C131",
   "status": "proved",
   "theorems": [
    "C131_any_order",
    "C131_slope",
    "C131_no_exception",
    "C131_diffusion",
    "C131_reported"
   ],
   "note": "Proved for the double precision instance of the model of linear_fit (and for any order of its sums, as numpy sums in pairs) and for the diffusion coefficient of msd.py. The least-squares line is specified by minimality of the residuals. C16 shows that the condition on the residuals cannot be dropped."
  },
  {
   "property": "C132",
   "status": "proved",
   "theorems": [
    "C132_count",
    "C132_distinct",
    "C132_spacing"
   ],
   "note": "Both arguments of linear_grid (number of points, spacing) in double precision; the deviations from C09 in double precision (C09_overshoot_refuted, C09_undershoot_refuted) are bounded by C132_spacing. Ends beyond 2^1000 and decreasing grids with a spacing are not covered."
  },
  {
   "property": "C133",
   "status": "proved",
   "theorems": [
    "C133_positions",
    "C133_center",
    "C133_separations"
   ],
   "note": "For the double precision instance of fix_cm_frame (correlation.py:376-387), positions relative to the exact center of mass of the frame."
  },
  {
   "property": "C134",
   "status": "proved",
   "theorems": [
    "C134_positive",
    "C134_increasing",
    "C134_zero"
   ],
   "note": "The power of floats is a parameter of the model (C pow), assumed accurate within 4 roundings where the exact power lies between 2^-1000 and 2^1000; C134_nonvacuous exhibits such a function. C134_zero also shows that a grid from 0 ends at x2 - 1, as in exact arithmetic. Negative ends are not covered."
  },
  {
   "property": "C135",
   "status": "proved",
   "theorems": [
    "C135_variance",
    "C135_susceptibility"
   ],
   "note": "C135_variance holds for any order of summation of the mean and of the squares; C135_susceptibility applies it to the object. The bound is relative to the square of the largest value: the values are multiplied by N before the variance, so that constant data may have a non-zero susceptibility of that order."
  },
  {
   "property": "C136",
   "status": "proved",
   "theorems": [
    "C136_tau"
   ],
   "note": "C136_tau covers _extract_tau; the None of a wave-number without a crossing is the caught ValueError of feqc."
  },
  {
   "property": "C137",
   "status": "partial",
   "theorems": [
    "C137_peak_partial",
    "C137_not_below_partial",
    "C137_peak_refuted"
   ],
   "note": "REFUTED as stated. Errors of the interpolated position and height for all tables; C137_not_below_partial is what remains of the claim that a peak is not below the highest sample; refuted in general by a table of three samples (height below -20 for values between 0.1 and 1)."
  },
  {
   "property": "C138",
   "status": "proved",
   "theorems": [
    "C138_shells",
    "C138_wave_numbers",
    "C138_cell"
   ],
   "note": "C138_shells describes the result of _setup_grid_sphere after any number of widenings up to the recursion limit; C138_wave_numbers the reported wave-numbers; C138_cell the smallest wave-vectors. That the widening ends is not claimed here (C138 is about the result when there is one)."
  },
  {
   "property": "C139",
   "status": "partial",
   "theorems": [
    "C139_separated_partial",
    "C139_increasing_partial",
    "C139_order_refuted",
    "C139_zero_refuted"
   ],
   "note": "REFUTED as stated. C139_separated_partial: shells that do not overlap as finally widened; C139_increasing_partial: no shell widened. C139_order_refuted: a user grid whose second shell is widened to both sides of the first. C139_zero_refuted: kmax below the smallest wave-number of the cell."
  },
  {
   "property": "C140",
   "status": "proved",
   "theorems": [
    "C140_assign",
    "C140_copy",
    "C140_setup"
   ],
   "note": "C140_assign: vectors given by the user; C140_copy: vectors of any calculation in the same cell; C140_setup: those selected by _setup. numpy.rint is rounding to nearest even."
  },
  {
   "property": "C141",
   "status": "proved",
   "theorems": [
    "C141_widening",
    "C141_reported",
    "C141_limit",
    "C141_given",
    "C141_default"
   ],
   "note": "Exact arithmetic; the sampler is any that returns distinct members of the shell. Rounding: C138."
  },
  {
   "property": "C142",
   "status": "proved",
   "theorems": [
    "C142_angle",
    "C142_distribution",
    "C142_bin",
    "C142_images",
    "C142_neighbours"
   ],
   "note": "For every pair of bonds the recorded angle is right up to rounding and the error of the arccosine; the distribution is the normalised histogram of the computed angles, with all rounding of the bins, centers and values bounded. The arccosine of the library is a parameter with an assumed error bound."
  },
  {
   "property": "C143",
   "status": "partial",
   "theorems": [
    "C143_same_calculation_partial",
    "C143_computed_partial",
    "C143_interrupted_refuted"
   ],
   "note": "REFUTED as stated. False if a call is interrupted between the two files: update runs never repair the file of relaxation times (C143_interrupted_refuted). Proved for all sequences of uninterrupted calls, with update or not, and of changes of the trajectory."
  },
  {
   "property": "C144",
   "status": "partial",
   "theorems": [
    "C144_reused_partial",
    "C144_complete_partial",
    "C144_stopped_refuted"
   ],
   "note": "REFUTED as stated. False for do() without update stopped between two files (C144_stopped_refuted). Proved by an invariant over all reachable states if only calls with update=True are stopped: the last file is newer than the trajectory only after a complete call."
  },
  {
   "property": "C145",
   "status": "partial",
   "theorems": [
    "C145_computed_partial",
    "C145_reused_refuted",
    "C145_second_call_refuted"
   ],
   "note": "REFUTED when the output is reused: average and variance are empty and their files are not looked at (C145_reused_refuted, C145_second_call_refuted). Proved for every call that computes."
  }
 ]
}