{
 "claims": [
  {
   "property": "C01",
   "status": "proved",
   "theorems": [
    "C01_site_numbering",
    "C01_move"
   ],
   "note": ""
  },
  {
   "property": "C02",
   "status": "proved",
   "theorems": [
    "C02_neighbourhood_symmetric"
   ],
   "note": ""
  },
  {
   "property": "C03",
   "status": "proved",
   "theorems": [
    "C03_neighbourhood_exact",
    "C03_duplicates_on_small_lattices"
   ],
   "note": "The second theorem shows that the size condition for having no duplicates is needed."
  },
  {
   "property": "C04",
   "status": "proved",
   "theorems": [
    "C04_minimum_image"
   ],
   "note": ""
  },
  {
   "property": "C05",
   "status": "proved",
   "theorems": [
    "C05_listed_is_possible"
   ],
   "note": "For every input of consistent sizes and every history."
  },
  {
   "property": "C06",
   "status": "partial",
   "theorems": [
    "C06_rows_listed_iff_possible",
    "C06_listed_iff_possible",
    "C06_fractional_range_refuted"
   ],
   "note": "Proved as an equivalence for processes whose displacements lie within the range the code computes. The statement without that condition is false of the code: the range is the largest coordinate component rounded down, and a process from basis point 0.5 to coordinate 1.5 is possible everywhere and listed nowhere."
  },
  {
   "property": "C07",
   "status": "proved",
   "theorems": [
    "C07_only_inert_entries_added",
    "C07_same_requirements"
   ],
   "note": ""
  },
  {
   "property": "C08",
   "status": "proved",
   "theorems": [
    "C08_listed_iff_matched_from_scratch",
    "C08_rebuilt_model_lists_the_same",
    "C08_performed_event_applies"
   ],
   "note": ""
  },
  {
   "property": "C09",
   "status": "proved",
   "theorems": [
    "C09_C11_bookkeeping",
    "C09_operations",
    "C09_add_remove",
    "C09_reachable"
   ],
   "note": ""
  },
  {
   "property": "C10",
   "status": "proved",
   "theorems": [
    "C10_total_rate",
    "C10_rate_counts_possible_events"
   ],
   "note": "Exact arithmetic, as the property says."
  },
  {
   "property": "C11",
   "status": "partial",
   "theorems": [
    "C09_C11_bookkeeping",
    "C11_weight_partial",
    "C11_bucket_weight_refuted"
   ],
   "note": "The full statement is false of the code: the rematch stores the plain rate constant and drops the multiplicity. Refuted with a concrete two-particle site; the partial theorem says what the stored weight is."
  },
  {
   "property": "C12",
   "status": "proved",
   "theorems": [
    "C12_multiplicity"
   ],
   "note": ""
  },
  {
   "property": "C13",
   "status": "proved",
   "theorems": [
    "C13_process_selection",
    "C13_partition",
    "C13_proportional"
   ],
   "note": ""
  },
  {
   "property": "C14",
   "status": "partial",
   "theorems": [
    "C14_selected_is_available",
    "C14_selection_succeeds",
    "C14_zero_deviate_refuted"
   ],
   "note": "Proved for deviates u > 0. For u = 0, which the generator can return, the code picks the first process even when it lists no site: refuted."
  },
  {
   "property": "C15",
   "status": "proved",
   "theorems": [
    "C11_C15_weighted_selection",
    "C15_site_selection",
    "C15_proportional"
   ],
   "note": ""
  },
  {
   "property": "C16",
   "status": "proved",
   "theorems": [
    "C16_changed_sites"
   ],
   "note": "frame and affected list of one event; Example C16_example"
  },
  {
   "property": "C17",
   "status": "proved",
   "theorems": [
    "C17_after_configuration"
   ],
   "note": "plain processes, one particle per site, stated on the rows the user writes"
  },
  {
   "property": "C18",
   "status": "proved",
   "theorems": [
    "C18_counts",
    "C18_change",
    "C18_conserved"
   ],
   "note": "reported numbers = column sums = occurrences of names (the latter while no occupation is negative)"
  },
  {
   "property": "C19",
   "status": "partial",
   "theorems": [
    "C19_nonnegative_partial",
    "C19_negative_refuted"
   ],
   "note": "false in general: bucket updates may take more than the process asks for (refuted); proved when every bucket row is thrifty"
  },
  {
   "property": "C20",
   "status": "proved",
   "theorems": [
    "C20_single_occupancy"
   ],
   "note": ""
  },
  {
   "property": "C21",
   "status": "proved",
   "theorems": [
    "C21_labels",
    "C21_not_permuting_refuted"
   ],
   "note": "the proviso on move vectors is needed: move vectors accepted by the constructor that do not permute the positions duplicate a label (refuted without it)"
  },
  {
   "property": "C22",
   "status": "partial",
   "theorems": [
    "C22_sum_of_moves",
    "C22_step",
    "C22_on_site_partial",
    "C22_on_site_refuted"
   ],
   "note": "sum of the reported moves proved for all runs; agreement with the site proved when atoms move only where the type changes, refuted otherwise (label moves, coordinate stays)"
  },
  {
   "property": "C23",
   "status": "proved",
   "theorems": [
    "C23_elements"
   ],
   "note": ""
  },
  {
   "property": "C24",
   "status": "proved",
   "theorems": [
    "C24_increment",
    "C24_run",
    "C24_given_rates"
   ],
   "note": "Clock over the reals with the infinities of IEEE doubles; the deviate 0 is redrawn. C24_run: from any reachable state the time after the run is the start time plus the sum of -ln(v)/R, R the sum of the rates of the listed events in the state before each step, v the non-zero deviates in the order drawn. C24_given_rates discharges the hypothesis on the rates for rate constants >= 0. Floating point rounding is not modelled."
  },
  {
   "property": "C25",
   "status": "proved",
   "theorems": [
    "C25_counts",
    "C25_multiples",
    "C25_multiples_increasing"
   ],
   "note": ""
  },
  {
   "property": "C26",
   "status": "proved",
   "theorems": [
    "C26_cleanup"
   ],
   "note": "failure of a finalise call also ends the sequence of clean-up calls, as failure of the flush does"
  },
  {
   "property": "C27",
   "status": "proved",
   "theorems": [
    "C27_breakers"
   ],
   "note": ""
  },
  {
   "property": "C28",
   "status": "partial",
   "theorems": [
    "C28_lattice",
    "C28_prefix",
    "C28_xyz",
    "C28_live_types_refuted",
    "C28_quotes_refuted"
   ],
   "note": "Proved for lattice trajectories and for xyz trajectories whose buffered types are copies or never change, with frames of at least two sites and names without double quotes (lattice) or blanks (xyz). Refuted: names with double quotes are written without escapes; if the wrapper returns a reference for atomIDTypes(), buffered xyz frames show the types at the time of the flush (whether it does depends on the wrapper generator, which is not modelled)."
  },
  {
   "property": "C29",
   "status": "partial",
   "theorems": [
    "C29_two_sites_partial",
    "C29_one_site_refuted"
   ],
   "note": "Proved for configurations with at least two sites. With one site the write fails with an IndexError (refuted)."
  },
  {
   "property": "C30",
   "status": "proved",
   "theorems": [
    "C30_cache_transparent",
    "C30_cached_environment",
    "C30_positions_refuted",
    "C30_names_refuted",
    "C30_collision_refuted"
   ],
   "note": "For every history: the run with caching succeeds exactly when the run without does, and configuration, events, rates and cumulated rates agree; the cached rates are what the user function returns now. Hypotheses: different keys for the different environments that come up in the history (not for all sequences: no 64-bit key has that, C75_no_perfect_key; C75_example_plain and C75_example_bucket check it for the real key), rates independent of positions, and (for cached plain processes) one particle per site at the start. The three refuted theorems show each hypothesis is needed."
  },
  {
   "property": "C31",
   "status": "partial",
   "theorems": [
    "C31_bounded",
    "C31_hit_was_stored",
    "C31_found_after_store",
    "C31_latest_value_partial",
    "C31_latest_refuted"
   ],
   "note": "Bounds, soundness of hits and finding a freshly stored key are proved. That a hit returns the most recently stored value is false when one key is stored with two values (refuted); the partial theorem states when it holds."
  },
  {
   "property": "C32",
   "status": "proved",
   "theorems": [
    "C32_split_compute_join",
    "C32_split_join",
    "C32_any_number_of_ranks"
   ],
   "note": ""
  },
  {
   "property": "C33",
   "status": "proved",
   "theorems": [
    "C33_chunks_partition"
   ],
   "note": ""
  },
  {
   "property": "C34",
   "status": "proved",
   "theorems": [
    "C34_block_averages",
    "C34_blocks_unique",
    "C34_true_counts"
   ],
   "note": "Times and counts exact; every data point is the exact mean of its block; the blocks are determined by the history; in a simulation the registered counts are those of the names at the sites."
  },
  {
   "property": "C35",
   "status": "partial",
   "theorems": [
    "C35_in_block_refuted",
    "C35_in_block_partial"
   ],
   "note": "The property is false of the code: a new block starts at the first step after the interval, the excess accumulates and times() ignores it. Proved: a block is never reported after its end, and within it as long as the accumulated excess is at most half an interval."
  },
  {
   "property": "C36",
   "status": "proved",
   "theorems": [
    "C36_histogram",
    "C36_normalized",
    "C36_times"
   ],
   "note": "Exact arithmetic for times; the number of passes of the growth loop is bounded (it terminates for every history)."
  },
  {
   "property": "C37",
   "status": "proved",
   "theorems": [
    "C37_counts"
   ],
   "note": ""
  },
  {
   "property": "C38",
   "status": "partial",
   "theorems": [
    "C38_normalised_refuted",
    "C38_short_run_refuted",
    "C38_normalised_partial"
   ],
   "note": "The property is false of the code: the counts are divided by the time at which the running block started, not by the elapsed time. Proved: what is reported, and that the property holds when the last step starts a block and the simulation started at 0."
  },
  {
   "property": "C39",
   "status": "proved",
   "theorems": [
    "C39_runs",
    "C39_history",
    "C39_bins",
    "C39_lags",
    "C39_blocks",
    "C39_simulation"
   ],
   "note": "Buffers, bins and lag counts characterised from the list of stops of each atom, for all histories of moves; C39_simulation: the observations of any simulation with permuting move vectors meet the hypotheses. Times and coordinates are exact integers."
  },
  {
   "property": "C40",
   "status": "partial",
   "theorems": [
    "C40_normalises",
    "C40_idempotent",
    "C40_rejects_partial",
    "C40_malformed_refuted"
   ],
   "note": "Normalisation and idempotence proved for every entry of the documented formats. Rejection with an Error is proved except for lists holding tuples whose shape slips through a precedence error in the check; C40_malformed_refuted gives a malformed entry that is accepted and one that ends in an IndexError."
  },
  {
   "property": "C41",
   "status": "partial",
   "theorems": [
    "C41_long",
    "C41_rejects",
    "C41_short",
    "C41_six_elements_refuted"
   ],
   "note": "Proved for all lattices and entries; entries with more than 5 elements end in an IndexError instead of an Error (refuted)."
  },
  {
   "property": "C42",
   "status": "partial",
   "theorems": [
    "C42_one_per_site_partial",
    "C42_buckets_refuted"
   ],
   "note": "Proved for the short and long formats. The bucket format is not checked for its length (refuted)."
  },
  {
   "property": "C43",
   "status": "partial",
   "theorems": [
    "C43_numbers_partial",
    "C43_duplicates_refuted"
   ],
   "note": "Proved for possible_types absent or without repeated names. Repeated names are accepted and leave a number without name, and particle counts are lost (refuted)."
  },
  {
   "property": "C44",
   "status": "partial",
   "theorems": [
    "C44_explains_partial",
    "C44_accepts",
    "C44_arguments",
    "C44_basis_rate",
    "C44_backend_data",
    "C44_rows",
    "C44_backend",
    "C44_distinct_refuted"
   ],
   "note": "Accepted vectors lead from position to position and turn the types before into the types after; explaining vectors are accepted; the backend receives the rows of the user. That no two vectors start or end at one position is false: the constructor accepts such vectors (C44_distinct_refuted)."
  },
  {
   "property": "C45",
   "status": "proved",
   "theorems": [
    "C45_swap",
    "C45_none"
   ],
   "note": "For distinct positions; the constructor accepts the process and its rows carry v and -v. In all other cases there are no vectors."
  },
  {
   "property": "C46",
   "status": "partial",
   "theorems": [
    "C46_accepts",
    "C46_rejects",
    "C46_zero_refuted",
    "C46_nan_refuted"
   ],
   "note": "acceptance is characterised exactly; the claim that intervals are positive is false: 0 is accepted for both step intervals and nan for the time interval (refuted)"
  },
  {
   "property": "C47",
   "status": "partial",
   "theorems": [
    "C47_accepted",
    "C47_positive_intervals",
    "C47_zero_interval_refuted",
    "C47_accepted_refuted"
   ],
   "note": "false for an interval of 0, which the constructor accepts (refuted); proved for all other accepted parameters"
  },
  {
   "property": "C48",
   "status": "partial",
   "theorems": [
    "C48_time_dump_partial",
    "C48_long_step_refuted",
    "C48_second_run_refuted"
   ],
   "note": "false when a step takes longer than the interval and in every run that does not start at time 0 (refuted); proved for runs from time 0 with increments not above the interval"
  },
  {
   "property": "C49",
   "status": "proved",
   "theorems": [
    "C49_sequence",
    "C49_observers",
    "C49_split"
   ],
   "note": "plugins that modify the model themselves are outside the model"
  },
  {
   "property": "C50",
   "status": "partial",
   "theorems": [
    "C50_start",
    "C50_step",
    "C50_simulation",
    "C50_cutoff_refuted",
    "C50_off_lattice_refuted",
    "C50_empty_site_refuted"
   ],
   "note": "Access outside an array is None in the model. Construction and every step of every run succeed under the stated conditions on the input (processes at lattice positions, cutoffs with surroundings beyond them, no process empties a site, rates not negative with an event left, deviates in (0,1]). Without the conditions the claim is false of the code: three refutations; u=0 is C14_zero_deviate_refuted."
  },
  {
   "property": "C51",
   "status": "proved",
   "theorems": [
    "C51_positions_within_range",
    "C51_rematching_covers_influence"
   ],
   "note": ""
  },
  {
   "property": "C52",
   "status": "partial",
   "theorems": [
    "C52_plain",
    "C52_bucket",
    "C52_surroundings",
    "C52_tolerance_refuted",
    "C52_first_row_refuted"
   ],
   "note": "Proved for processes (with and without custom rates, plain and bucket) and surroundings whose positions are distinct and whose different distances differ by more than the tolerance 1e-5; the centre row of a process must stay first. Both conditions are needed: two refutations (the comparison with tolerance is not transitive, and the first row is the centre)."
  },
  {
   "property": "C53",
   "status": "proved",
   "theorems": [
    "C53_reflexive",
    "C53_symmetric",
    "C53_same"
   ],
   "note": "Rates are not compared (C53_rate_ignored)."
  },
  {
   "property": "C54",
   "status": "partial",
   "theorems": [
    "C54_unknown_rejected",
    "C54_plain_partial",
    "C54_update_refuted"
   ],
   "note": "Unknown names in the match information are rejected for all process lists; for plain processes this is an iff and nothing unknown reaches the backend. Unknown names in the update of a bucket process are not checked and reach the backend (C54_update_refuted)."
  },
  {
   "property": "C55",
   "status": "partial",
   "theorems": [
    "C55_separate",
    "C55_sequential",
    "C55_sequential_next",
    "C55_refuted",
    "C55_undefined_refuted",
    "C55_types_refuted"
   ],
   "note": "False as stated: the copy of the interactions in a LatticeModel points to the processes of the original, so models that share a KMCInteractions object at the same time disturb each other (C55_refuted, C55_undefined_refuted). Proved: with one object per model every interleaving gives the models they are on their own (C55_separate); a shared object may be used by one model after another on the same lattice with the same possible types in the same order (C55_sequential, C55_sequential_next); with the possible types in another order it may not (C55_types_refuted). Rate calculators that read the configuration they were constructed with are not modelled."
  },
  {
   "property": "C56",
   "status": "partial",
   "theorems": [
    "C56_exact",
    "C56_model",
    "C56_lost",
    "C56_refuted"
   ],
   "note": "False of the code beyond 2^24 cells: C56_refuted (a 300x300x300 lattice, checked with Flocq doubles) and C56_lost (every boundary cell past 2^24). Proved: every conversion is exact while the number of cells is at most 2^24, and then it is the conversion of the integer model."
  },
  {
   "property": "C57",
   "status": "partial",
   "theorems": [
    "C57_drift",
    "C57_grid",
    "C57_operations",
    "C57_selection",
    "C57_counterpart",
    "C57_refuted",
    "C57_negative_refuted",
    "C57_absorbed_refuted",
    "C57_empty_selected_refuted"
   ],
   "note": "False of the code: a residue is left, it can be negative, small rates are lost, and a process without sites can be selected (four refutations with doubles). Proved: an explicit bound on the drift for every history; exactness for rates on a common grid; on such a grid all operations and the selection in doubles agree with the integer model."
  },
  {
   "property": "C58",
   "status": "proved",
   "theorems": [
    "C58_blocks",
    "C58_cut_unique",
    "C58_kept",
    "C58_reported",
    "C58_switched_off"
   ],
   "note": "Exact sums; C58_reported over real numbers (square roots), hence uses the axioms of the standard library Reals."
  },
  {
   "property": "C59",
   "status": "partial",
   "theorems": [
    "C59_environment",
    "C59_covered_whole_cells",
    "C59_covered_one_point",
    "C59_environment_refuted"
   ],
   "note": "For every reachable state of a simulation with uncached custom rates and lattice positions: each listed rate is what the user function returns for all sites within the cutoff nearest first, the present occupation and the occupation with the updates applied. Proved when the matching range covers the cutoff (always on one-point bases, or when the cutoff is at most the whole number of cells). Refuted otherwise: on a two-point basis with cutoff 1.5 a site within the cutoff is not passed (C59_environment_refuted)."
  },
  {
   "property": "C60",
   "status": "partial",
   "theorems": [
    "C60_nothing_available",
    "C60_stops",
    "C60_zero_rate",
    "C60_hangs_refuted"
   ],
   "note": "A run with no available event stops and says so (proved). The second half of the property is false of the code: with available events whose rates are all zero (rate_constant 0.0 is accepted) the do-while loop in SimulationTimer::propagateTime never ends: C60_hangs_refuted gives a reachable state, C60_zero_rate shows that no sequence of deviates ends the loop."
  },
  {
   "property": "C61",
   "status": "proved",
   "theorems": [
    "C61_sites_distinct"
   ],
   "note": ""
  },
  {
   "property": "C62",
   "status": "proved",
   "theorems": [
    "C62_reported",
    "C62_short",
    "C62_identity",
    "C62_reread"
   ],
   "note": "All bucket lists; C62_reread covers the way through the constructor of a new configuration."
  },
  {
   "property": "C63",
   "status": "proved",
   "theorems": [
    "C63_means",
    "C63_times",
    "C63_steps",
    "C63_cutoff"
   ],
   "note": "Quotients are exact rationals. The standard deviation and the printed output are not modelled."
  },
  {
   "property": "C64",
   "status": "partial",
   "theorems": [
    "C64_works_partial",
    "C64_accepted",
    "C64_no_history_refuted",
    "C64_no_time_refuted",
    "C64_no_bins",
    "C64_track",
    "C64_one_step"
   ],
   "note": "The property is false: history_steps=0 and t_max=0.0 are accepted and then setup or the first comparison fails (refuted theorems); n_bins=0 raises ZeroDivisionError in the constructor. Proved: with at least one history step and a positive t_max the analysis never fails."
  },
  {
   "property": "C65",
   "status": "proved",
   "theorems": [
    "C65_backend"
   ],
   "note": "For arguments that are well formed (entries of names or pairs, updates of pairs, one update per position, at least one particle needed at every position). builtBucket is what the theorems about bucket processes start from."
  },
  {
   "property": "C66",
   "status": "proved",
   "theorems": [
    "C66_start",
    "C66_total",
    "C66_step",
    "C66_probability",
    "C66_next_state",
    "C66_multiple_exists",
    "C66_history",
    "C66_every_history"
   ],
   "note": "Refinement of the chain described in SIdeal.v (types at sites, rows, rates; no part of the program) for plain processes with fixed rates and one basis point each. Probabilities are counted exactly over a grid of pairs of deviates whose size is a multiple of the rates."
  },
  {
   "property": "C67",
   "status": "partial",
   "theorems": [
    "C67_unit_cell",
    "C67_cell_error",
    "C67_independent",
    "C67_lattice",
    "C67_lattice_error",
    "C67_sites",
    "C67_left_handed_refuted",
    "C67_coinciding_refuted"
   ],
   "note": "False in two respects: independent vectors in left-handed order are rejected (C67_left_handed_refuted), and equal basis points are accepted, so that two sites share a place (C67_coinciding_refuted). Proved: the exact set of accepted arguments, which errors are raised for arguments without nan and inf, independence, and the numbering and distinctness of sites for distinct basis points. The determinant is computed exactly."
  },
  {
   "property": "C68",
   "status": "proved",
   "theorems": [
    "C68_accepted",
    "C68_start",
    "C68_total",
    "C68_step",
    "C68_probability",
    "C68_next_state",
    "C68_history",
    "C68_every_history"
   ],
   "note": "The chain is that of SIdeal.v, the reading of the arguments that of SPyChain.v; neither uses the program. Conditions (record wellPosed): processes lie on the lattice and reach no further than R cells, an axis is periodic with 2R+1 cells or has one cell, different distances differ by more than 1e-5, basis points differ, one basis point per process, no rate calculator, implicit wildcards left on. The script calls the constructors directly; reading script files is not modelled."
  },
  {
   "property": "C69",
   "status": "partial",
   "theorems": [
    "C69_accepted",
    "C69_error",
    "C69_settable",
    "C69_not_settable",
    "C69_calculator_partial",
    "C69_calculator_refuted",
    "C69_kept",
    "C69_backend",
    "C69_default_partial",
    "C69_default_refuted"
   ],
   "note": "False in two respects. A class set after a name is made with the C++ configuration and is not checked (C69_calculator_refuted); proved for call sequences without a class after a name. The documented default cutoff is not used: each process is seen within the larger of 1.0 and its own reach (C69_default_refuted); it agrees with the documentation for the largest process if that reaches 1.0. The rest is proved for all processes made by the constructors."
  },
  {
   "property": "C70",
   "status": "proved",
   "theorems": [
    "C70_start",
    "C70_total",
    "C70_step",
    "C70_probability",
    "C70_next_state",
    "C70_multiple_exists",
    "C70_history",
    "C70_every_history",
    "C70_room",
    "C70_room_corner",
    "C70_surroundings",
    "C70_one_each",
    "C70_comes"
   ],
   "note": "The chain is that of SChain.v, which does not use the program. Conditions (record processesInput): processes lie on the lattice with one basis point each and reach no further than R cells, an axis is periodic with 2R+1 cells or has one cell, implicit wildcards are on, rows take no more than they ask for and never empty a site (an emptied site is finding C50). With a calculator (record calculatorRates): rates are not negative, the surroundings are wider than the cutoffs (C70_room, C70_room_corner: criteria in terms of the lattice), and the function gives the same rate for every correct account of the same surroundings; caching under the conditions of C30 (different keys for the environments the chain can come to). Rates are integers, see C18/C19 for the float sums."
  },
  {
   "property": "C71",
   "status": "partial",
   "theorems": [
    "C71_file",
    "C71_times_refuted",
    "C71_one_site_refuted"
   ],
   "note": "C71_file is the whole statement for at least two sites, with names of types and creation time without double quotes, backslashes and line breaks; it covers the formats %18.10e and %15.6f, the header and the frames. Python is the interpreter of SPython.v: words, expressions and statements of the part of the language such files use, everything else is refused. The float that Python makes of a decimal is an argument of the theorem. Times are read to eleven digits, so different times can be read as equal (C71_times_refuted); with one site the file has more times and steps than types (C71_one_site_refuted, see C29)."
  },
  {
   "property": "C72",
   "status": "partial",
   "theorems": [
    "C72_configuration",
    "C72_interactions",
    "C72_model",
    "C72_numbers",
    "C72_thirds_refuted",
    "C72_near_one_refuted",
    "C72_quotes_refuted",
    "C72_repeated_refuted",
    "C72_bucket_configuration_raises",
    "C72_bucket_process_raises"
   ],
   "note": "The first three are the round trip for objects made by the constructors, with numbers of at most seven digits, names without single quotes, backslashes and line breaks, processes no two positions of which coincide, and possible types without repetitions. Python is the interpreter of SPython.v with the constructors as calls; decimals are read exactly. Without these conditions the round trip fails: thirds of a cell, basis points just below 1, quotation marks and repeated possible types (the refuted theorems). Configurations with buckets and bucket processes cannot be written at all (the last two)."
  },
  {
   "property": "C73",
   "status": "proved",
   "theorems": [
    "C73_accepted",
    "C73_start",
    "C73_total",
    "C73_step",
    "C73_probability",
    "C73_next_state",
    "C73_history",
    "C73_every_history"
   ],
   "note": "The chain is that of SChain.v, the reading of the arguments that of SPyChain2.v; neither uses the program. Conditions (record mixedPosed): those of C68, and for bucket processes: every position asks for something, rows take no more than they ask for and leave at least one particle; types given by single names go with plain processes only. With a calculator (record answers): rates are not negative, the sites within R cells include all up to the cutoff and one beyond it, the functions return the same for every correct account of the same surroundings, and what is cached follows from the types around alone."
  },
  {
   "property": "C74",
   "status": "partial",
   "theorems": [
    "C74_run",
    "C74_reproducible",
    "C74_reproducible_any_time",
    "C74_ranks",
    "C74_ranks_again",
    "C74_like_one_process",
    "C74_script",
    "C74_device_refuted"
   ],
   "note": "The statement holds for the four pseudo-random generators; the engines of the C++ library are arbitrary functions, the clock of every process and the earlier state of its generators are arbitrary too. Processes meet only in the collective calls (relation together of MSpmd.v). C74_script joins this with C73: a script run with a seed on any number of processes is a history of its chain. With rng_type DEVICE every process draws its own numbers and the statement is false (C74_device_refuted): the processes go different ways without any error and list events that do not match their configurations."
  },
  {
   "property": "C75",
   "status": "partial",
   "theorems": [
    "C75_digest",
    "C75_key",
    "C75_text",
    "C75_half_text",
    "C75_digest_text_refuted",
    "C75_no_perfect_key",
    "C75_cache_key_refuted"
   ],
   "note": "md5.c (from the archive in c++/externals) and hash.cpp are modelled statement by statement with 32- and 64-bit arithmetic; the digest is that of RFC 1321 for messages of any length given in any portions, and the key is its 64-bit fold. The part of the statement that different environments have different keys is false for every 64-bit key (C75_no_perfect_key, C75_cache_key_refuted), and the digest printed as text leaves out leading zeros, so that the text does not determine it (C75_digest_text_refuted). Little-endian machine with 32-bit int, as the tests of the program assume."
  },
  {
   "property": "C76",
   "status": "partial",
   "theorems": [
    "C76_formula",
    "C76_positive",
    "C76_deviation",
    "C76_short_history",
    "C76_count_refuted"
   ],
   "note": "The formula is the variance of a mean over K overlapping n-step displacements of a random walk (C76_formula: the closed forms in the code are the sum over all pairs of displacements), the roots are never of negative numbers, and what is reported for every bin and direction is that deviation. But the K that is used is the number of comparisons over floor(n)+2 steps instead of n steps (an index that is off by two), so the deviations are too large and 0 near the end of the history; with up to three history steps all are 0 (C76_short_history, C76_count_refuted). Real numbers in place of floats."
  },
  {
   "property": "C77",
   "status": "partial",
   "theorems": [
    "C77_statistics",
    "C77_counts_beyond",
    "C77_count_refuted",
    "C77_composition",
    "C77_histogram",
    "C77_small_bins_refuted",
    "C77_master"
   ],
   "note": "Every line is split at blanks and its cells read as decimal numbers: they are the values of the block or bin to the printed digits (C77_statistics, C77_composition, C77_histogram). The last clause is false: line i of the process statistics pairs the time i*interval with the events of i+1 blocks (C77_count_refuted: events at rate 1 are printed as n/t = 2.1), and always contains all events up to (i+1)*interval (C77_counts_beyond). Times are printed with five decimals, so small bins all get the time 0.00000 (C77_small_bins_refuted). Quotients are exact before they are formatted."
  },
  {
   "property": "C78",
   "status": "proved",
   "theorems": [
    "C78_frames",
    "C78_header"
   ],
   "note": "The texts of times and coordinates are those of the format %15.10e with correct rounding, so the fields never run together and read back to eleven digits. As for C28 the buffered atom types must be copies or not change before the flush (C28_live_types_refuted otherwise)."
  },
  {
   "property": "C79",
   "status": "proved",
   "theorems": [
    "C79_file",
    "C79_end",
    "C79_complete"
   ],
   "note": "C79_file: whatever objects are attached and however the run ends, once it came to its loop. C79_end: without breakers a run fails only in a state without events, when the analysis objects raise nothing and the supply of random numbers lasts. C79_complete puts them together. The scripts are those of C73 (mixedPosed: enough room around each process, at least two sites). The history is the one of the random numbers: [drawn] says that the events are those the first pairs of deviates select and the waiting times those of the first nonzero deviates of the clock. Times are rounded to integers in a small unit by any function [clock]; the file shows coordinates and times to the digits of its formats (C71)."
  },
  {
   "property": "C80",
   "status": "partial",
   "theorems": [
    "C80_calls",
    "C80_same_numbers",
    "C80_fixed_seed",
    "C80_longer",
    "C80_split_refuted"
   ],
   "note": "That two runs make one long run is refuted for fixed seeds: the second call starts the numbers again (C80_split_refuted; C49_split has it when the numbers go on). The rest is proved for all engines. Single process; C74 carries a run over to MPI ranks. DEVICE generators are left out: they have no seed."
  },
  {
   "property": "C81",
   "status": "proved",
   "theorems": [
    "C81_law",
    "C81_run",
    "C81_waiting",
    "C81_markov"
   ],
   "note": "C81_law: the set of random numbers is a box and its volume is the probability; that independent uniform numbers lie in a box with a probability equal to its volume is the definition of uniform, not a theorem here. C81_run says what a continuation is: a run of that many steps, ending in the state the events lead to. C81_waiting and C81_markov check the specification of the law itself. The scripts are those of C73 (mixedPosed). Rates are integers and the deviates of the choices rationals; rounding of doubles is not modelled."
  },
  {
   "property": "C82",
   "status": "proved",
   "theorems": [
    "C82_exchanged",
    "C82_undone",
    "C82_return",
    "C82_stationary"
   ],
   "note": "C82_exchanged: which calls of KMCProcess undo one another; for bucket processes undoes is stated on the rows. C82_undone and C82_return are about the simulation, by C73. C82_stationary is about the chain of the script, which the simulation follows by C73 and C81; it needs a finite list of states that is closed under events. Bucket events are not weighted by their multiplicity (finding 1), so the rates are those of C73."
  },
  {
   "property": "C83",
   "status": "partial",
   "theorems": [
    "C83_accepts",
    "C83_begins",
    "C83_untouched",
    "C83_kind",
    "C83_refused_refuted",
    "C83_type_refuted",
    "C83_empty_refuted"
   ],
   "note": "The statement is proved. Three stronger expectations are refuted: a wrong trajectory_type is refused only after the generator was seeded and the backend made; without a file name it is not refused at all; an empty list of analysis objects is refused."
  },
  {
   "property": "C84",
   "status": "partial",
   "theorems": [
    "C84_table",
    "C84_master",
    "C84_one_step_refuted",
    "C84_empty_refuted"
   ],
   "note": "The statement is proved; the digits of the standard deviations, which are square roots, are an arbitrary function of the number. Refuted: that a table can be printed for every accepted number of history steps (one step raises), and that every displacement in it is a mean of observed ones (bins without comparisons show 0)."
  },
  {
   "property": "C85",
   "status": "proved",
   "theorems": [
    "C85_file",
    "C85_end",
    "C85_complete"
   ],
   "note": "As C79, for the xyz trajectory. The names of the types are words without blanks and line ends. When the buffer keeps references to the types of the backend instead of copies (C28, live = true) the hypothesis is that the recorded types stay as they are; C23_elements says for which processes they do. How labels, types and positions change in one step is C21-C23."
  },
  {
   "property": "C86",
   "status": "proved",
   "theorems": [
    "C86_net",
    "C86_ledger",
    "C86_conserved",
    "C86_bounded",
    "C86_ends"
   ],
   "note": "The script is that of C73 (mixedPosed): proper arguments, processes on the lattice that take no more than they ask for. What an event adds is read off the rows of the process; C86_net counts it from the arguments of a plain process."
  },
  {
   "property": "C87",
   "status": "partial",
   "theorems": [
    "C87_script",
    "C87_no_atoms",
    "C87_refuted"
   ],
   "note": "False when no atom has a type of the map: the lists are opened and never closed, so the file is no program (C87_refuted for one case, C87_no_atoms for all). C87_script proves the property whenever there is such an atom. A line vector = [...]*Angstrom is read without its unit. Products and quotients are exact until they are formatted."
  },
  {
   "property": "C88",
   "status": "proved",
   "theorems": [
    "C88_ignored",
    "C88_others"
   ],
   "note": "The sites in the surroundings of the place of the event must be distinct, as they are when the surroundings fit into the cell. The process performed is the one built from the rows, with or without implicit wildcards; the row and its site are paired by the entry of the process at the position of the row."
  },
  {
   "property": "C89",
   "status": "proved",
   "theorems": [
    "C89_translation",
    "C89_constants",
    "C89_start",
    "C89_rate",
    "C89_law",
    "C89_after"
   ],
   "note": "For the scripts of C73 (plain and bucket processes, rate constants or a rate calculator). With a rate calculator its answers must not depend on the place (sameEverywhere); rate constants never do (C89_constants). Probabilities are volumes of boxes of random numbers, as in C81."
  },
  {
   "property": "C90",
   "status": "proved",
   "theorems": [
    "C90_rate",
    "C90_law",
    "C90_after"
   ],
   "note": "For the scripts of C73. With a rate calculator, which is told the number of the process, the rates must be those of the same processes in both scripts. Probabilities are volumes of boxes of random numbers, as in C81."
  },
  {
   "property": "C91",
   "status": "proved",
   "theorems": [
    "C91_rate",
    "C91_law",
    "C91_after",
    "C91_constants"
   ],
   "note": "For the scripts of C73, rates m / n times those of the other script; floating point rounding is not part of this statement."
  },
  {
   "property": "C92",
   "status": "proved",
   "theorems": [
    "C92_never",
    "C92_rate",
    "C92_law",
    "C92_after",
    "C92_constants"
   ],
   "note": "For the scripts of C73; the processes with rate zero are given last, by C90 any order will do. Random numbers for the choices are in (0, 1], those of the clock in (0, 1)."
  },
  {
   "property": "C93",
   "status": "proved",
   "theorems": [
    "C93_start",
    "C93_rate",
    "C93_law",
    "C93_after"
   ],
   "note": "For the scripts of C73. With rate calculators the rates of the chain must be the same in both scripts."
  }
 ]
}