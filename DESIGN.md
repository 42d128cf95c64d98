# KMCLib: formal model and proofs in Rocq (Coq 8.16.1)

## 1. Trusted base

* Coq's kernel (8.16.1).  No kernel check is switched off, no plugin beyond those shipped with Coq is used.
* What `Print Assumptions` lists for each theorem: section 6.  All theorems are closed under the global context, except those about
  real numbers (clock, square roots) and IEEE doubles (Flocq), which use the axioms of Coq's `Reals` and `Classical_Prop`.
* The faithfulness of the model: every definition in `rocq/theories/M*.v` cites the file and the lines in /repo it
  transcribes and says where it simplifies.  The code was read, never run.
* `vm_compute` (part of the kernel) is used to evaluate the concrete systems in the examples and counterexamples.

## 2. Modelling conventions

* **Indices and counts** are `Z`, as `int` in C++, with unbounded range (overflow of `int` is out of scope).
  Vector reads and writes go through `zget`/`zset`, which return `None` outside the bounds: undefined behaviour of the
  backend is an explicit outcome (`None`), not a default value.  An uncaught exception of the backend is also `None`.
* **Python exceptions** are values of a result type (`Ok v | Raise e`), with the library's Error told apart from ZeroDivisionError,
  TypeError, IndexError and ValueError.
* **Coordinates** are fixed point: a coordinate is an integer number of `1/S` cells for a scale `S > 0` that is a
  parameter of the model (`lt_unit`).  Every finite set of doubles is representable for some `S` (a power of two), so only the
  *rounding* of coordinate arithmetic is abstracted, and comparisons with tolerances (1e-5, 1e-6) are exact
  integer comparisons of the same real inequality.  Distances are kept squared.
* **Rates** are fixed point integers in the same way; a random deviate is a rational `m/D`.  Arithmetic is exact, except in the two
  properties about floating point (C56, C57), which are stated about binary64 with rounding to nearest even (Flocq).
  `C57_counterpart` ties the two together: on a grid of rates the doubles compute what the integer model computes.
* **The random generator, the clock, the hash function, the rate calculator, and Python plugins** are arguments: an arbitrary
  stream of deviates, an arbitrary list of readings, arbitrary functions, arbitrary callbacks which may fail.  The hash function of the
  program itself (MD5, C75) is modelled in MHash.v and is one of those the theorems can be applied to.
* **MPI** is modelled by running the per-rank code for each rank and summing, as `MPI_Allreduce` does.  MSpmd.v (C74) gives every rank its own
  program and its own state, which meet only in the collective calls, and shows that this is the same thing.
* `std::sort` is modelled by a stable sort with the code's comparison; where the comparison is a total order on the
  elements this is the only possible result (C52).
* **Binary searches** (`std::lower_bound`) are modelled as binary searches, not by their specification.

## 3. What is modelled and what is not

| source in /repo | model |
|---|---|
| c++/src/latticemap.{h,cpp}; KMCLattice.py (site numbering, sites) | MLattice.v; doubles in indexToCell: MFloat.v |
| c++/src/typebucket, matchlistentry, matchlist | MMatch.v, MProcess.v |
| c++/src/process, customrateprocess | MProcess.v; doubles in total rates: MFloat.v |
| c++/src/interactions, ratecalculator | MInteractions.v; doubles in the probability table: MFloat.v |
| c++/src/configuration | MConfig.v, MPerform.v |
| c++/src/matcher, hash (key data) | MMatcher.v |
| c++/src/hash.cpp (hash64MD5xor, md5Core, hashMD5), c++/externals/zip/md5.tar.gz: md5.c | MHash.v |
| c++/src/ratetable | MRateTable.v |
| c++/src/mpiroutines | MMpi.v; every rank with its own state: MSpmd.v |
| c++/src/latticemodel | MModel.v; several models and the copy of the interactions: MShared.v |
| c++/src/simulationtimer | MTimer.v (real numbers with infinities) |
| c++/src/random (types, seeding, drawing; the engines are arbitrary) and a run that draws from one generator | MRandom.v |
| the arguments of KMCLatticeModel.run and their checks, until the loop begins | MRunArgs.v |
| Analysis/OnTheFlyMSD.py: printResults | MMsdPrint.v |
| several calls of KMCLatticeModel.run on one object, with the stored backend and the generator seeded by each call | MRepeat.v |
| c++/src/blocker, ontheflymsd | MBlocker.v, MMsd.v, MMsdDev.v |
| Analysis/Composition, ProcessStatistics, TimeStepDistribution, OnTheFlyMSD (.py) | MAnalysis.v, MPrint.v, MMsd.v, MMsdDev.v |
| CoreComponents/KMCLatticeModel.run | MRun.v, MEnd.v, MEndXyz.v (on the C++ backend with a trajectory object) |
| CoreComponents/KMCControlParameters, CheckUtilities | MControl.v, MPy.v |
| CoreComponents/KMCConfiguration (constructor, backend), CheckUtilities.checkTypes, ConversionUtilities | MTypes.v |
| CoreComponents/KMCUnitCell, KMCLattice, KMCInteractions (constructor), KMCLatticeModel (constructor, backend) | MPyLattice.v |
| CoreComponents/KMCInteractions as an object (constructor, setRateCalculator, _backend kept after the first query) | MPyInter.v |
| CoreComponents/KMCBaseProcess, KMCProcess, KMCBucketProcess, KMCLocalConfiguration, KMCInteractions._backend, CoordinateUtilities | MPyProcess.v |
| PluginInterfaces/KMCRateCalculatorPlugin (conversion of the arguments) | MCallback.v |
| Utilities/Trajectory/* | MTrajectory.v, MXyz.v |
| CoreComponents/KMCConfiguration.py _atkScript | MAtk.v |
| the formats %e, %f, %i of numbers; the `_script` methods of the core components; Utilities/SaveAndReadUtilities | MScript.v (reading a file: the interpreter of SPython.v) |
Not modelled: the SWIG bindings, the engines of the C++ library that random.cpp uses (arbitrary functions in MRandom.v) and MPI itself (mpicommons.cpp; MSpmd.v states what its collective calls do), messages printed to the screen, file system errors other than "a write fails", overflow of `int`, running time.

## 4. Layout of `rocq/theories`

* `Base.v` utilities (option monad, `zget`/`zset`, `isort`, `lower_bound`).
* `M*.v` the model: definitions only.
* `S*.v` small specifications, independent of the model's helper functions.
* `P*.v` proofs.
* `X*.v` checkers with soundness proofs and concrete systems for the examples.
* `T*.v` the property theorems, each with an `Example` that meets its hypotheses, and `Print Assumptions`.

## 5. The properties

For each property: the part of the model it is about, how it is proved, and where.  `_refuted` theorems are counterexamples to a statement that the code does not meet; see section 7.  The exact reading is in the statement of the theorem and in the `S*.v` file named there.

| id | property | model | proof | status | theorems (file) |
|---|---|---|---|---|---|
| C01 | Site numbering is a bijection | MLattice | algebra of division and remainder | proved | `C01_site_numbering` (TLattice.v); `C01_move` (TMove.v) |
| C02 | The neighbourhood relation is symmetric | MLattice.neighbourIndices | membership characterised by a displacement per axis; symmetry from the characterisation | proved | `C02_neighbourhood_symmetric` (TLattice.v) |
| C03 | The neighbourhood is exactly the set of sites within R shells | MLattice.neighbourIndices | same characterisation; counterexample on a small lattice | proved | `C03_neighbourhood_exact`, `C03_duplicates_on_small_lattices` (TLattice.v) |
| C04 | Minimum-image wrapping | MLattice.wrapCoord | case analysis on 2c against the period | proved | `C04_minimum_image` (TLattice.v) |
| C05 | A listed (process, site) pair really is possible | MMatch, MConfig, MMatcher, MModel | invariant over histories: listed iff matched; pointwise reading of the match | proved | `C05_listed_is_possible` (TMatch.v) |
| C06 | Every possible event is listed (completeness on periodic lattices) | same | alignment of two sorted lists of one geometry; a periodic lattice large enough has every displaced site in the list | partial | `C06_rows_listed_iff_possible` (TPossible.v); `C06_listed_iff_possible`, `C06_fractional_range_refuted` (TMatch.v) |
| C07 | Implicit wildcards do not change a process | MInteractions.insertWildcards | induction on the two lists: the old entries stay in order, the new ones require nothing and change nothing | proved | `C07_only_inert_entries_added`, `C07_same_requirements` (TMatch.v) |
| C08 | Incremental rematching equals full rematching after any history | MMatcher, MModel | invariant over histories: every list is the list computed from scratch | proved | `C08_listed_iff_matched_from_scratch`, `C08_rebuilt_model_lists_the_same`, `C08_performed_event_applies` (TMatch.v) |
| C09 | Available-site bookkeeping is a set with consistent counts | MProcess.addSite/removeSite | set and count lemmas for the swap-with-last removal; invariant over histories | proved | `C09_C11_bookkeeping` (TWeights.v); `C09_operations`, `C09_add_remove`, `C09_reachable` (TSelect.v) |
| C10 | Total rate is the sum of the rates of all available events | MProcess, MInteractions | sum over the listed sites as an invariant | proved | `C10_total_rate`, `C10_rate_counts_possible_events` (TSelect.v) |
| C11 | Bucket events are weighted by the number of ways they can occur | MMatcher.updateProcesses | witness; the stored weight characterised | partial | `C09_C11_bookkeeping` (TWeights.v); `C11_weight_partial`, `C11_bucket_weight_refuted` (TMult.v) |
| C12 | The multiplicity is the product of binomial coefficients | MMatch.multiplicity | product of binomials, exact division | proved | `C12_multiplicity` (TMult.v) |
| C13 | Processes are selected in proportion to their total rate | MInteractions.pickProcessIndex | binary search finds the first entry not below; lengths of the intervals | proved | `C13_process_selection`, `C13_partition`, `C13_proportional` (TSelect.v) |
| C14 | An event that cannot happen is never selected | same | table constant where a process has no sites | partial | `C14_selected_is_available`, `C14_selection_succeeds`, `C14_zero_deviate_refuted` (TSelect.v) |
| C15 | Sites are selected in proportion to the event rate | MProcess.updateRateTable, pickSite | same, with table of the site rates | proved | `C11_C15_weighted_selection` (TWeights.v); `C15_site_selection`, `C15_proportional` (TSelect.v) |
| C16 | Performing an event changes only the sites the process names | MPerform | frame lemma over the zipped lists | proved | `C16_changed_sites` (TStep.v) |
| C17 | Performing a plain process produces the after-configuration | MPerform, MProcess | rows of the user followed through the sorted match lists | proved | `C17_after_configuration` (TStep.v) |
| C18 | Particle accounting | MPerform, MConfig | column sums over a run | proved | `C18_counts`, `C18_change`, `C18_conserved` (TStep.v) |
| C19 | Occupations never become negative | MPerform | invariant for thrifty rows; witness | partial | `C19_nonnegative_partial`, `C19_negative_refuted` (TStep.v) |
| C20 | Single occupancy is preserved | MPerform | invariant | proved | `C20_single_occupancy` (TStep.v) |
| C21 | Atom identities are never lost or duplicated | MPerform (atom ids) | permutation invariant over runs | proved | `C21_labels`, `C21_not_permuting_refuted` (TAtoms.v) |
| C22 | Atom coordinates track the moves | MPerform (atom coordinates) | sum over the moves; congruence modulo the periods | partial | `C22_sum_of_moves`, `C22_step`, `C22_on_site_partial`, `C22_on_site_refuted` (TAtoms.v) |
| C23 | Atom ids keep their element | MPerform (atom elements) | invariant | proved | `C23_elements` (TAtoms.v) |
| C24 | Time moves forward with the exponential clock | MTimer | real analysis of -ln(u)/R; induction over the run | proved | `C24_increment`, `C24_run`, `C24_given_rates` (TTimer.v) |
| C25 | Number of steps, dumps and analysis calls | MRun | induction over the loop; the calls are those of a list comprehension | proved | `C25_counts`, `C25_multiples`, `C25_multiples_increasing` (TRun.v) |
| C26 | Clean-up on every exit path | MRun | case analysis of every exit | proved | `C26_cleanup` (TRun.v) |
| C27 | Breakers stop the run at the first requested step | MRun | induction over the loop | proved | `C27_breakers` (TRun.v) |
| C28 | Trajectory buffering loses and duplicates nothing | MTrajectory | a reader for the files, shown to recover the frames after any history of stores and flushes | partial | `C28_lattice`, `C28_prefix`, `C28_xyz`, `C28_live_types_refuted`, `C28_quotes_refuted` (TTrajectory.v) |
| C29 | Every lattice configuration can be written to a lattice trajectory | MTrajectory | totality of the write | partial | `C29_two_sites_partial`, `C29_one_site_refuted` (TTrajectory.v) |
| C30 | The rate cache is transparent | MMatcher, MRateTable | simulation between the run with and without cache; invariant on the table | proved | `C30_cache_transparent`, `C30_cached_environment`, `C30_positions_refuted`, `C30_names_refuted`, `C30_collision_refuted` (TCache.v) |
| C31 | The rate table is a bounded cache that only returns stored values | MRateTable | invariants of the two maps | partial | `C31_bounded`, `C31_hit_was_stored`, `C31_found_after_store`, `C31_latest_value_partial`, `C31_latest_refuted` (TRateTable.v) |
| C32 | Results do not depend on the number of MPI ranks | MMpi, MMatcher | splitting, computing and joining is the map over the whole list | proved | `C32_split_compute_join`, `C32_split_join`, `C32_any_number_of_ranks` (TMpi.v) |
| C33 | Chunks are a balanced partition | MMpi | arithmetic of the chunk bounds | proved | `C33_chunks_partition` (TMpi.v) |
| C34 | Composition analysis reports block averages of the true particle counts | MAnalysis | a cut of the history into blocks, shown unique | proved | `C34_block_averages`, `C34_blocks_unique`, `C34_true_counts` (TAnalysis.v) |
| C35 | Composition analysis reports each block at its time | MAnalysis | bound on the accumulated excess; witness | partial | `C35_in_block_refuted`, `C35_in_block_partial` (TAnalysis.v) |
| C36 | Time step distribution is a complete histogram | MAnalysis | fold invariant of the histogram; termination of the growth loop | proved | `C36_histogram`, `C36_normalized`, `C36_times` (TAnalysis.v) |
| C37 | Process statistics count every tracked event once | MAnalysis | fold invariant | proved | `C37_counts` (TAnalysis.v) |
| C38 | Spatial process statistics are normalised with the elapsed time | MAnalysis | exact characterisation; witness | partial | `C38_normalised_refuted`, `C38_short_run_refuted`, `C38_normalised_partial` (TAnalysis.v) |
| C39 | MSD history buffers hold the last positions | MMsd | buffers against the list of stops of each atom | proved | `C39_runs`, `C39_history`, `C39_bins`, `C39_lags`, `C39_blocks`, `C39_simulation` (TMsd.v) |
| C40 | Bucket entries are normalised without losing particles | MTypes | functional correctness of the normalisation | partial | `C40_normalises`, `C40_idempotent`, `C40_rejects_partial`, `C40_malformed_refuted` (TTypes.v) |
| C41 | Short and long types formats describe the same configurations | MTypes | both conversions to one specification | partial | `C41_long`, `C41_rejects`, `C41_short`, `C41_six_elements_refuted` (TTypes.v) |
| C42 | The configuration has one bucket per lattice site | MTypes | lengths; witness | partial | `C42_one_per_site_partial`, `C42_buckets_refuted` (TTypes.v) |
| C43 | Type names and type numbers correspond one to one | MTypes | bijection of names and numbers; witness | partial | `C43_numbers_partial`, `C43_duplicates_refuted` (TTypes.v) |
| C44 | Accepted move vectors explain the process | MPyProcess | validation characterised; rows followed into the backend | partial | `C44_explains_partial`, `C44_accepts`, `C44_rows`, `C44_backend`, `C44_distinct_refuted` (TPyProcess.v); `C44_arguments`, `C44_basis_rate`, `C44_backend_data` (TPyBucket.v) |
| C45 | Default move vectors are the swap | MPyProcess | case analysis | proved | `C45_swap`, `C45_none` (TPyProcess.v) |
| C46 | Control parameter validation | MControl, MPy | acceptance characterised for all Python values | partial | `C46_accepts`, `C46_rejects`, `C46_zero_refuted`, `C46_nan_refuted` (TControl.v) |
| C47 | A run never divides by a zero interval | MControl, MRun | no division by zero for accepted parameters other than 0 | partial | `C47_accepted`, `C47_accepted_refuted` (TControl.v); `C47_positive_intervals`, `C47_zero_interval_refuted` (TRun.v) |
| C48 | Time based dumping gives one frame per interval | MRun | induction with the time of the last dump | partial | `C48_time_dump_partial`, `C48_long_step_refuted`, `C48_second_run_refuted` (TRun.v) |
| C49 | Analysis, trajectories and breakers do not influence the dynamics | MRun | the sequence of backend states is independent of the observers; runs can be split | proved | `C49_sequence`, `C49_observers`, `C49_split` (TRun.v) |
| C50 | Steps never access memory out of bounds | all of the backend | every access shown in bounds from an invariant; three witnesses | partial | `C50_start`, `C50_step`, `C50_simulation`, `C50_cutoff_refuted`, `C50_off_lattice_refuted`, `C50_empty_site_refuted` (TNoUB.v) |
| C51 | Rematching range covers the influence of every event | MProcess (range), MModel | every event that could change is in the superset of neighbours | proved | `C51_positions_within_range` (TPossible.v); `C51_rematching_covers_influence` (TMatch.v) |
| C52 | Order of input coordinates is irrelevant | MMatch, MProcess | sorting with a total order has one result | partial | `C52_plain`, `C52_bucket`, `C52_surroundings`, `C52_tolerance_refuted`, `C52_first_row_refuted` (TOrder.v) |
| C53 | Equality of processes | MPyProcess | algebra of the comparison | proved | `C53_reflexive`, `C53_symmetric`, `C53_same` (TPyProcess.v) |
| C54 | Interactions reject unknown types | MPyProcess | validation characterised | partial | `C54_unknown_rejected`, `C54_plain_partial`, `C54_update_refuted` (TPyProcess.v) |
| C55 | Two models do not disturb each other | MShared | world of objects and models; simulation up to buffers; padding twice is padding once | partial | `C55_separate`, `C55_sequential`, `C55_sequential_next`, `C55_refuted`, `C55_undefined_refuted`, `C55_types_refuted` (TShared.v) |
| C56 | Index-to-cell conversion is exact in floating point | MFloat (Flocq) | error bounds in reals; witness by evaluation of doubles | partial | `C56_exact`, `C56_model`, `C56_lost`, `C56_refuted` (TFloat.v) |
| C57 | Total rates do not drift in floating point | MFloat (Flocq) | error bound by induction over the history; exactness on a grid; witnesses | partial | `C57_drift`, `C57_grid`, `C57_operations`, `C57_selection`, `C57_counterpart`, `C57_refuted`, `C57_negative_refuted`, `C57_absorbed_refuted`, `C57_empty_selected_refuted` (TFloat.v) |
| C58 | Block averages of a registered value | MBlocker | fold invariant; means and deviations over the reals | proved | `C58_blocks`, `C58_cut_unique`, `C58_kept`, `C58_reported`, `C58_switched_off` (TMsd.v) |
| C59 | Rate calculator input is the true environment | MMatcher.updateSingleRate, MCallback | the lists passed to the rate function characterised | partial | `C59_environment`, `C59_covered_whole_cells`, `C59_covered_one_point`, `C59_environment_refuted` (TRates.v) |
| C60 | The simulation stops with an Error when nothing can happen | MRun, MTimer | case analysis; no fuel ends the loop | partial | `C60_nothing_available`, `C60_stops` (TRun.v); `C60_zero_rate`, `C60_hangs_refuted` (TTimer.v) |
| C61 | Lattice sites are distinct and lie in the cell they are numbered by | MLattice | injectivity of the numbering and of the shift by cells | proved | `C61_sites_distinct` (TLattice.v) |
| C62 | Sparse type information round trip | MTypes | the two conversions are inverse | proved | `C62_reported`, `C62_short`, `C62_identity`, `C62_reread` (TTypes.v) |
| C63 | MSD results are means over the comparisons of a bin | MMsd | sums over the comparisons of a bin, exact quotients | proved | `C63_means`, `C63_times`, `C63_steps`, `C63_cutoff` (TMsd.v) |
| C64 | An accepted MSD analysis works | MMsd | totality under the condition; witnesses | partial | `C64_works_partial`, `C64_accepted`, `C64_no_history_refuted`, `C64_no_time_refuted`, `C64_no_bins`, `C64_track`, `C64_one_step` (TMsd.v) |
| C65 | Bucket processes reach the backend as given | MPyProcess | arguments followed into the backend | proved | `C65_backend` (TPyBucket.v) |
| C66 | The simulation is the Markov chain of the processes given | MModel, MTimer (the whole backend); SIdeal | bisimulation of reachable states with the states of the chain; counting of pairs of deviates | proved | `C66_start`, `C66_total`, `C66_step`, `C66_probability`, `C66_next_state`, `C66_multiple_exists`, `C66_history`, `C66_every_history` (TIdeal.v) |
| C67 | Unit cells and lattices are read as given, and coinciding or dependent geometry is refused | MPyLattice | characterisation of the accepted arguments; determinant algebra | partial | `C67_unit_cell`, `C67_cell_error`, `C67_independent`, `C67_lattice`, `C67_lattice_error`, `C67_sites`, `C67_left_handed_refuted`, `C67_coinciding_refuted` (TPyLattice.v) |
| C68 | A Python script runs the Markov chain its arguments describe | MTypes, MPyProcess, MPyLattice, MModel, MTimer; SPyChain, SIdeal | constructors inverted into the premises of C66; the chain does not depend on the order in which a process keeps its rows | proved | `C68_accepted`, `C68_start`, `C68_total`, `C68_step`, `C68_probability`, `C68_next_state`, `C68_history`, `C68_every_history` (TPyChain.v) |
| C69 | Interactions use the rate calculator that was set last, and hand the processes over as given | MPyInter, MPyLattice, MPyProcess | inversion of the constructors; induction over the calls; fold invariant for the reach of a process | partial | `C69_accepted`, `C69_error`, `C69_settable`, `C69_not_settable`, `C69_calculator_partial`, `C69_calculator_refuted`, `C69_kept`, `C69_backend`, `C69_default_partial`, `C69_default_refuted` (TPyInter.v) |
| C70 | With bucket processes and rate calculators, too, the simulation is the Markov chain of the given processes and rates | MModel, MMatcher, MCallback, MTimer (the whole backend); SChain | as C66, with numbers of particles as states; the rates from C59 and C30; bisimulation and counting of pairs of deviates | proved | `C70_start`, `C70_total`, `C70_step`, `C70_probability`, `C70_next_state`, `C70_multiple_exists`, `C70_history`, `C70_every_history`, `C70_room`, `C70_room_corner`, `C70_surroundings`, `C70_one_each`, `C70_comes` (TChain.v) |
| C71 | A lattice trajectory file is a Python program that gives back what was recorded | MTrajectory, MScript (formats of numbers); SPython, STrajFile | tokens of every text piece, parsing of canonical tokens, execution; induction over frames; correctness of decimal rounding | partial | `C71_file`, `C71_times_refuted`, `C71_one_site_refuted` (TTrajFile.v) |
| C72 | A model written as a script is read back as the same model | MScript, MPyLattice, MTypes, MPyProcess; SPython, SScript, SSaved | the constructors give the same object when applied to what the object holds; every statement of the script is parsed from canonical tokens and executed; induction over types and processes | partial | `C72_configuration`, `C72_interactions`, `C72_model`, `C72_numbers`, `C72_thirds_refuted`, `C72_near_one_refuted`, `C72_quotes_refuted`, `C72_repeated_refuted`, `C72_bucket_configuration_raises`, `C72_bucket_process_raises` (TScript.v) |
| C73 | A script with plain and bucket processes and a rate calculator simulates the Markov chain its arguments describe | MTypes, MPyProcess, MPyLattice, MModel, MTimer; SPyChain2, SChain | constructors inverted into the premises of C70; the chain does not depend on how a process keeps its rows; types() shows the numbers (C20 for plain configurations) | proved | `C73_accepted`, `C73_start`, `C73_total`, `C73_step`, `C73_probability`, `C73_next_state`, `C73_history`, `C73_every_history` (TPyChain2.v) |
| C74 | A run is determined by its settings, and all MPI processes make the same run | MRandom, MSpmd (every rank runs its own program; collective calls); SRandom | programs of the ranks composed step by step, with determinism of the collective semantics; the loop as a function of the active engine alone; the numbers used are a prefix of the stream | partial | `C74_run`, `C74_reproducible`, `C74_reproducible_any_time`, `C74_ranks`, `C74_ranks_again`, `C74_like_one_process`, `C74_device_refuted` (TRandom.v); `C74_script` (TRandom2.v) |
| C75 | The key under which a rate is stored identifies the environment it was computed for | MHash (md5.c, hash.cpp); SHash (RFC 1321) | each of the 64 written lines is the operation of the RFC; invariant of the context over MD5_Update; padding by arithmetic; pigeonhole | partial | `C75_digest`, `C75_key`, `C75_text`, `C75_half_text`, `C75_digest_text_refuted`, `C75_no_perfect_key`, `C75_cache_key_refuted` (THash.v) |
| C76 | The reported standard deviations are the statistical errors of the mean square displacements | MMsdDev; SMsdDev | closed forms of the double sums by induction on K; positivity; C39_lags and C63_steps for the counts and the mean number of steps | partial | `C76_formula`, `C76_positive`, `C76_deviation`, `C76_short_history`, `C76_count_refuted` (TMsdDev.v) |
| C77 | The printed tables show the results | MPrint; SPrint | correct rounding of the formats (PFormat), the shape of a line by induction on the blocks or bins, and C34, C36, C37 for the values | partial | `C77_statistics`, `C77_counts_beyond`, `C77_count_refuted`, `C77_composition`, `C77_histogram`, `C77_small_bins_refuted`, `C77_master` (TPrint.v) |
| C78 | An XYZ trajectory file says where the atoms were | MXyz, MTrajectory; SXyz | C28_xyz for the frames with the formats of MScript; the text of %15.10e is at least 15 characters long and denotes the number to eleven digits (PFormat) | proved | `C78_frames`, `C78_header` (TXyz.v) |
| C79 | The trajectory file of a run shows a history of the Markov chain, from the script to the file | MEnd (MRun, MTimer, MTrajectory, MScript); SEnd | C73 makes every step an event of the chain; PRunFrames gives the frames of a run that ends in any way; PEndFile replays the calls of the log on the trajectory object (C71); path_history joins the steps to a history; goes_on shows that a state with a rate has a next step | proved | `C79_file`, `C79_end`, `C79_complete` (TEnd.v) |
| C80 | Several runs on one model: each goes on where the one before ended, with random numbers of its own seed | MRepeat (MRandom); SRepeat | a run as a function of the engine (PRandom); induction over the calls; the loop over n + m steps splits; a computed system for the refutation | partial | `C80_calls`, `C80_same_numbers`, `C80_fixed_seed`, `C80_longer`, `C80_split_refuted` (TRepeat.v) |
| C81 | With independent uniform random numbers a simulation has the law of the continuous time Markov chain of its script | MTimer, MModel, the script layers of C73; SLaw | pick_box: the deviates that pick a process, then a site, are two intervals (C70); clock_longer: the waiting time is above w iff the number of the clock is below exp (- R w); induction over the events with the step of C73 | proved | `C81_law`, `C81_run`, `C81_waiting`, `C81_markov` (TLaw.v) |
| C82 | Processes that undo one another: every event can be undone, and detailed balance gives the equilibrium | the script layers of C73; SReverse | undone: the rows of a process lie at different sites (placed), so each site is changed back; C82_return: induction over the events that led to the state, then C73_every_history; balance_stationary: the terms of the flow are exchanged by the involution on the process numbers, sums over a permutation | proved | `C82_exchanged`, `C82_undone`, `C82_return`, `C82_stationary` (TReverse.v) |
| C83 | run(): which arguments are accepted, and what a refused call leaves behind | MRunArgs (MControl, MRepeat); SRunArgs | case analysis over the checks in the order of the program; each check has a lemma that says which values it lets through | partial | `C83_accepts`, `C83_begins`, `C83_untouched`, `C83_kind`, `C83_refused_refuted`, `C83_type_refuted`, `C83_empty_refuted` (TRunArgs.v) |
| C84 | The printed table of mean square displacements | MMsdPrint (MMsd, MMsdDev, MPrint); SPrint, SMsd, SMsdDev | the columns by C63 and C76; a line is read back cell by cell (PPrint, the format %e of C71), induction over the lines | partial | `C84_table`, `C84_master`, `C84_one_step_refuted`, `C84_empty_refuted` (TMsdPrint.v) |
| C85 | The xyz trajectory file of a run follows the atoms through a history of the Markov chain | MEndXyz (MEnd, MXyz, MTrajectory); SEnd, SXyz | as C79, with C78 for the file; PAtomNames: the recorded types are names, by induction over the entries of a process and the steps; the numbers of atoms from the frame lemmas of PRow | proved | `C85_file`, `C85_end`, `C85_complete` (TEndXyz.v) |
| C86 | The numbers of particles keep books on the processes: stoichiometry, conservation laws, and when a run must end | the chain of C73; SLedger | every row of an event that can happen lies at exactly one site and no site has two rows (C73, PGeo): the sum over the sites of the changes is the sum over the rows; then induction over the history | proved | `C86_net`, `C86_ledger`, `C86_conserved`, `C86_bounded`, `C86_ends` (TLedger.v) |
| C87 | The script for ATK represents the atoms of the configuration | MAtk; SAtk (SPython, SPrint) | the texts between brackets are items with gaps (PPython); induction over the loop with any number of names in the line; the numbers by C48 and the lemmas on formats | partial | `C87_script`, `C87_no_atoms`, `C87_refuted` (TAtk.v) |
| C88 | An update that adds the wildcard cancels its row, and only its row | MPerform, MProcess; SWild | the entries built from rows with arbitrary dictionaries (PWild), then the effect of all active entries on one site (PPerform, PEffect) | proved | `C88_ignored`, `C88_others` (TWild.v) |
| C89 | No cell of a periodic lattice is special: translated configurations have translated simulations | the script level of C73; STranslate | translations permute the sites and keep displacements (arithmetic of the numbering); hence rates, effects and, by induction over the events, the law of the chain; C73 and C81 carry it to the runs | proved | `C89_translation`, `C89_constants`, `C89_start`, `C89_rate`, `C89_law`, `C89_after` (TTranslate.v) |
| C90 | The order in which the processes are given makes no difference | the script level of C73; SRecast | sums over all processes do not depend on their order, so total rates and, by induction over the events, the law of the chain do not; C73 and C81 carry it to the runs | proved | `C90_rate`, `C90_law`, `C90_after` (TRecast.v) |
| C91 | The unit of time makes no difference | the script level of C73; SRecast | total rates are multiplied by m / n, so ratios of rates and products of total rate and waiting time stay; induction over the events; C73 and C81 carry it to the runs | proved | `C91_rate`, `C91_law`, `C91_after`, `C91_constants` (TRecast.v) |
| C92 | A process with rate zero is as good as no process | the script level of C73; SIdle | every step is an event with positive rate (C73_step), so never one of a process with rate zero; sums of rates are the same without it; induction over the events; C73 and C81 carry it to the runs | proved | `C92_never`, `C92_rate`, `C92_law`, `C92_after`, `C92_constants` (TIdle.v) |
| C93 | Only the lattice, the particles, the processes and the rates matter | the script level of C73 | both simulations have the law of the same chain, by C73 and C81 | proved | `C93_start`, `C93_rate`, `C93_law`, `C93_after` (TOnly.v) |

## 6. Assumptions per theorem

From `Print Assumptions` for every theorem named in MANIFEST.json (also printed by the build of the `T*.v` files).

* `C24_increment`, `C24_run`, `C56_exact`, `C56_model`, `C56_lost`, `C56_refuted`, `C57_drift`, `C57_grid`, `C57_operations`, `C57_selection`, `C57_counterpart`, `C57_refuted`, `C57_negative_refuted`, `C57_absorbed_refuted`, `C57_empty_selected_refuted`, `C60_zero_rate`, `C60_hangs_refuted`, `C66_history`, `C66_every_history`, `C68_history`, `C68_every_history`, `C70_history`, `C70_every_history`, `C73_history`, `C73_every_history`, `C74_run`, `C74_reproducible`, `C74_reproducible_any_time`, `C74_ranks`, `C74_ranks_again`, `C74_like_one_process`, `C74_script`, `C74_device_refuted`, `C79_file`, `C79_end`, `C79_complete`, `C80_calls`, `C80_same_numbers`, `C80_fixed_seed`, `C80_longer`, `C80_split_refuted`, `C81_law`, `C81_run`, `C82_return`, `C85_file`, `C85_end`, `C85_complete`, `C86_ledger`, `C86_ends`, `C89_law`, `C89_after`, `C90_law`, `C90_after`, `C91_law`, `C91_after`, `C92_never`, `C92_law`, `C92_after`, `C93_law`, `C93_after`: `ClassicalDedekindReals.sig_not_dec`, `ClassicalDedekindReals.sig_forall_dec`, `FunctionalExtensionality.functional_extensionality_dep`, `Classical_Prop.classic`
* `C58_reported`, `C76_deviation`, `C76_short_history`, `C76_count_refuted`, `C81_waiting`, `C81_markov`, `C84_table`, `C84_master`, `C84_one_step_refuted`, `C84_empty_refuted`: `ClassicalDedekindReals.sig_not_dec`, `ClassicalDedekindReals.sig_forall_dec`, `FunctionalExtensionality.functional_extensionality_dep`
* `C76_formula`, `C76_positive`, `C82_stationary`: `ClassicalDedekindReals.sig_forall_dec`, `FunctionalExtensionality.functional_extensionality_dep`
* `C83_accepts`, `C83_begins`, `C83_untouched`, `C83_kind`, `C83_refused_refuted`, `C83_type_refuted`, `C83_empty_refuted`: `ClassicalDedekindReals.sig_forall_dec`
* *Closed under the global context*: all other theorems, that is `C01_site_numbering`, `C01_move`, `C02_neighbourhood_symmetric`, `C03_neighbourhood_exact`, `C03_duplicates_on_small_lattices`, `C04_minimum_image`, `C05_listed_is_possible`, `C06_rows_listed_iff_possible`, `C06_listed_iff_possible`, `C06_fractional_range_refuted`, `C07_only_inert_entries_added`, `C07_same_requirements`, `C08_listed_iff_matched_from_scratch`, `C08_rebuilt_model_lists_the_same`, `C08_performed_event_applies`, `C09_C11_bookkeeping`, `C09_operations`, `C09_add_remove`, `C09_reachable`, `C10_total_rate`, `C10_rate_counts_possible_events`, `C11_weight_partial`, `C11_bucket_weight_refuted`, `C12_multiplicity`, `C13_process_selection`, `C13_partition`, `C13_proportional`, `C14_selected_is_available`, `C14_selection_succeeds`, `C14_zero_deviate_refuted`, `C11_C15_weighted_selection`, `C15_site_selection`, `C15_proportional`, `C16_changed_sites`, `C17_after_configuration`, `C18_counts`, `C18_change`, `C18_conserved`, `C19_nonnegative_partial`, `C19_negative_refuted`, `C20_single_occupancy`, `C21_labels`, `C21_not_permuting_refuted`, `C22_sum_of_moves`, `C22_step`, `C22_on_site_partial`, `C22_on_site_refuted`, `C23_elements`, `C24_given_rates`, `C25_counts`, `C25_multiples`, `C25_multiples_increasing`, `C26_cleanup`, `C27_breakers`, `C28_lattice`, `C28_prefix`, `C28_xyz`, `C28_live_types_refuted`, `C28_quotes_refuted`, `C29_two_sites_partial`, `C29_one_site_refuted`, `C30_cache_transparent`, `C30_cached_environment`, `C30_positions_refuted`, `C30_names_refuted`, `C30_collision_refuted`, `C31_bounded`, `C31_hit_was_stored`, `C31_found_after_store`, `C31_latest_value_partial`, `C31_latest_refuted`, `C32_split_compute_join`, `C32_split_join`, `C32_any_number_of_ranks`, `C33_chunks_partition`, `C34_block_averages`, `C34_blocks_unique`, `C34_true_counts`, `C35_in_block_refuted`, `C35_in_block_partial`, `C36_histogram`, `C36_normalized`, `C36_times`, `C37_counts`, `C38_normalised_refuted`, `C38_short_run_refuted`, `C38_normalised_partial`, `C39_runs`, `C39_history`, `C39_bins`, `C39_lags`, `C39_blocks`, `C39_simulation`, `C40_normalises`, `C40_idempotent`, `C40_rejects_partial`, `C40_malformed_refuted`, `C41_long`, `C41_rejects`, `C41_short`, `C41_six_elements_refuted`, `C42_one_per_site_partial`, `C42_buckets_refuted`, `C43_numbers_partial`, `C43_duplicates_refuted`, `C44_explains_partial`, `C44_accepts`, `C44_arguments`, `C44_basis_rate`, `C44_backend_data`, `C44_rows`, `C44_backend`, `C44_distinct_refuted`, `C45_swap`, `C45_none`, `C46_accepts`, `C46_rejects`, `C46_zero_refuted`, `C46_nan_refuted`, `C47_accepted`, `C47_positive_intervals`, `C47_zero_interval_refuted`, `C47_accepted_refuted`, `C48_time_dump_partial`, `C48_long_step_refuted`, `C48_second_run_refuted`, `C49_sequence`, `C49_observers`, `C49_split`, `C50_start`, `C50_step`, `C50_simulation`, `C50_cutoff_refuted`, `C50_off_lattice_refuted`, `C50_empty_site_refuted`, `C51_positions_within_range`, `C51_rematching_covers_influence`, `C52_plain`, `C52_bucket`, `C52_surroundings`, `C52_tolerance_refuted`, `C52_first_row_refuted`, `C53_reflexive`, `C53_symmetric`, `C53_same`, `C54_unknown_rejected`, `C54_plain_partial`, `C54_update_refuted`, `C55_separate`, `C55_sequential`, `C55_sequential_next`, `C55_refuted`, `C55_undefined_refuted`, `C55_types_refuted`, `C58_blocks`, `C58_cut_unique`, `C58_kept`, `C58_switched_off`, `C59_environment`, `C59_covered_whole_cells`, `C59_covered_one_point`, `C59_environment_refuted`, `C60_nothing_available`, `C60_stops`, `C61_sites_distinct`, `C62_reported`, `C62_short`, `C62_identity`, `C62_reread`, `C63_means`, `C63_times`, `C63_steps`, `C63_cutoff`, `C64_works_partial`, `C64_accepted`, `C64_no_history_refuted`, `C64_no_time_refuted`, `C64_no_bins`, `C64_track`, `C64_one_step`, `C65_backend`, `C66_start`, `C66_total`, `C66_step`, `C66_probability`, `C66_next_state`, `C66_multiple_exists`, `C67_unit_cell`, `C67_cell_error`, `C67_independent`, `C67_lattice`, `C67_lattice_error`, `C67_sites`, `C67_left_handed_refuted`, `C67_coinciding_refuted`, `C68_accepted`, `C68_start`, `C68_total`, `C68_step`, `C68_probability`, `C68_next_state`, `C69_accepted`, `C69_error`, `C69_settable`, `C69_not_settable`, `C69_calculator_partial`, `C69_calculator_refuted`, `C69_kept`, `C69_backend`, `C69_default_partial`, `C69_default_refuted`, `C70_start`, `C70_total`, `C70_step`, `C70_probability`, `C70_next_state`, `C70_multiple_exists`, `C70_room`, `C70_room_corner`, `C70_surroundings`, `C70_one_each`, `C70_comes`, `C71_file`, `C71_times_refuted`, `C71_one_site_refuted`, `C72_configuration`, `C72_interactions`, `C72_model`, `C72_numbers`, `C72_thirds_refuted`, `C72_near_one_refuted`, `C72_quotes_refuted`, `C72_repeated_refuted`, `C72_bucket_configuration_raises`, `C72_bucket_process_raises`, `C73_accepted`, `C73_start`, `C73_total`, `C73_step`, `C73_probability`, `C73_next_state`, `C75_digest`, `C75_key`, `C75_text`, `C75_half_text`, `C75_digest_text_refuted`, `C75_no_perfect_key`, `C75_cache_key_refuted`, `C77_statistics`, `C77_counts_beyond`, `C77_count_refuted`, `C77_composition`, `C77_histogram`, `C77_small_bins_refuted`, `C77_master`, `C78_frames`, `C78_header`, `C82_exchanged`, `C82_undone`, `C86_net`, `C86_conserved`, `C86_bounded`, `C87_script`, `C87_no_atoms`, `C87_refuted`, `C88_ignored`, `C88_others`, `C89_translation`, `C89_constants`, `C89_start`, `C89_rate`, `C90_rate`, `C91_rate`, `C91_constants`, `C92_rate`, `C92_constants`, `C93_start`, `C93_rate`.

The listed axioms are all in the standard library (Coq.Reals, Coq.Logic).  Flocq is used as a library of definitions and theorems; it adds no axiom of its own.

## 7. Findings

Statements one would expect to hold and the code does not meet.  Each is a theorem with the suffix `_refuted` about the model unless marked *(reading)*.

Backend:

1. The multiplicity of a bucket event is computed but not stored when a site is added or its rate updated in a rematch (`C11_bucket_weight_refuted`).
2. A deviate of exactly 0 selects the first process even if it has no sites; the site lookup then reads past the end (`C14_zero_deviate_refuted`).
3. The matching range is the largest coordinate component rounded down, so processes and cutoffs with fractional positive components miss sites (`C06_fractional_range_refuted`, `C59_environment_refuted`).
4. `indexToCell` adds 1e-9 before the conversion to int; the addition is lost past 2^24 cells (`C56_lost`, `C56_refuted`).
5. `total_rate_` is accumulated by += and -=: a residue stays, it can be negative, small rates are lost, and a process without sites can be selected (`C57_refuted`, `C57_negative_refuted`, `C57_absorbed_refuted`, `C57_empty_selected_refuted`).
6. The loop that collects the environment within the cutoff dereferences the end iterator when the match list ends within the cutoff (`C50_cutoff_refuted`).
7. A process at positions that are not lattice positions leaves the index mapping too short (`C50_off_lattice_refuted`).
8. A bucket process that empties a site ends in an access outside a vector (`C50_empty_site_refuted`); updates may take more particles than the match asks for (`C19_negative_refuted`).
9. A LatticeModel copies the Interactions object, but the copied pointers lead to the processes of the original, and the Python object keeps the backend made for the first configuration (`C55_refuted`, `C55_undefined_refuted`, `C55_types_refuted`).
10. The cache key of a rate holds neither positions nor the order of names, and equal hashes are taken for equal keys (`C30_positions_refuted`, `C30_names_refuted`, `C30_collision_refuted`).
11. A rate table that gets one key with two values may return the older one (`C31_latest_refuted`).
12. A total rate of zero with events available makes `propagateTime` loop forever; rate_constant 0.0 is accepted (`C60_hangs_refuted`).
13. Comparisons of coordinates with a tolerance are not transitive, so the order of the input can matter (`C52_tolerance_refuted`); the first row is the centre (`C52_first_row_refuted`).
14. Move vectors are applied to the label but not to the coordinate of a site whose type does not change (`C22_on_site_refuted`); vectors that do not permute the positions duplicate a label (`C21_not_permuting_refuted`).
15. On periodic lattices smaller than the neighbourhood, neighbours are listed twice (`C03_duplicates_on_small_lattices`).
16. Processes on several basis points never get wildcards inserted *(reading; covered by the hypothesis on the basis in C06 and C07)*.

Python:

17. `Composition.times` and the block boundaries drift apart (`C35_in_block_refuted`); `ProcessStatistics` divides by the start of the running block (`C38_normalised_refuted`, `C38_short_run_refuted`).
18. Time based dumping misses frames when a step is longer than the interval and in every later run (`C48_long_step_refuted`, `C48_second_run_refuted`).
19. Intervals of 0 and nan are accepted (`C46_zero_refuted`, `C46_nan_refuted`, `C47_zero_interval_refuted`).
20. An operator precedence error lets malformed bucket entries through (`C40_malformed_refuted`); entries with six elements end in an IndexError (`C41_six_elements_refuted`); the bucket format is not checked for its length (`C42_buckets_refuted`); repeated possible types are accepted (`C43_duplicates_refuted`).
21. A lattice trajectory of a one-site configuration fails (`C29_one_site_refuted`); names with double quotes corrupt the file (`C28_quotes_refuted`); buffered types that are references change later (`C28_live_types_refuted`).
22. Two move vectors may share a start or an end (`C44_distinct_refuted`); unknown names in the update of a bucket process are not checked (`C54_update_refuted`); the rate is ignored when processes are compared (`C53_rate_ignored`).
23. `OnTheFlyMSD` accepts history_steps=0 and t_max=0.0 and then fails (`C64_no_history_refuted`, `C64_no_time_refuted`).
24. Left-handed cells are rejected with a message about linear dependence (`C67_left_handed_refuted`); equal basis points are accepted and give sites at one place (`C67_coinciding_refuted`).
25. *(reading)* If a finalize call raises, later analysis objects are not finalised; `breaker.setup` is never called; `TimeStepDistribution(binsize=0.0)` is accepted; nan and inf pass the checks of rate constants and coordinates; `_script` prints the types the object was created with.
26. `setRateCalculator('Name')` followed by `setRateCalculator(SomeClass)` makes the class with the C++ configuration instead of the KMCConfiguration, and skips the check that it derives from the plugin class: the flag for builtin calculators is never reset (`C69_calculator_refuted`).
27. A calculator that does not implement cutoff() is documented to see as far as the largest process; the code uses 1.0 or the reach of each process itself (`C69_default_refuted`).
28. A lattice trajectory holds times to eleven digits: late in a long run different times are read as the same (`C71_times_refuted`).
29. A saved model is not always read back: numbers have seven digits, so a process between thirds of a cell is refused when it is read (`C72_thirds_refuted`), and a basis point of 0.9999999 is written as 1.0 and refused (`C72_near_one_refuted`); names with quotation marks (`C72_quotes_refuted`) and repeated possible types (`C72_repeated_refuted`) change. The rate calculator is silently dropped (`C72_interactions`).
30. `_script` raises TypeError for every configuration with buckets and AttributeError for interactions with a bucket process (`C72_bucket_configuration_raises`, `C72_bucket_process_raises`).
31. With `rng_type='DEVICE'` and more than one MPI process every process draws its own numbers: the configurations of the processes diverge without any error, and, since the matching is shared, a process lists events that do not match its own configuration (`C74_device_refuted`).
32. The keys of the rate cache have 64 bits, so different environments with the same key exist (`C75_no_perfect_key`, `C75_cache_key_refuted`), and a stored rate is returned without comparing environments (`C30_collision_refuted`). The digest as text (`hashMD5`) leaves out leading zeros of its halves (`C75_digest_text_refuted`; the expected value in the program's own test has 31 digits).
33. The standard deviations of the mean square displacement use the number of comparisons over floor(n)+2 steps for bins with comparisons over n steps (`hstep_counts[int(n1+1.0)]` where index 0 counts one step): they are too large, 0 for bins whose mean number of steps is at least history_steps - 2, and always 0 with up to three history steps (`C76_count_refuted`, `C76_short_history`).
34. The table of the process statistics pairs the time i*interval with the number of events of the blocks 0 to i, which is i+1 blocks: counts contain at least the events of one interval too much and n/t is too large, by a factor of two in the first line (`C77_count_refuted`, `C77_counts_beyond`). An interval of 0.0 is accepted and raises ZeroDivisionError in printResults (`C77_zero_interval`). The table of the time steps prints times with five decimals: bins smaller than 10^-5 cannot be told apart (`C77_small_bins_refuted`).
35. Every call of run() seeds the generator again. With a fixed seed (or two calls within the same second without a seed) a second run on the same model uses the random numbers of the first again, so run(n) and run(m) together are not run(n+m), and the two pieces are not independent (`C80_split_refuted`, `C80_fixed_seed`).
36. run() checks the value of trajectory_type late: a call refused for it has already seeded the generator of the process and made the backend (`C83_refused_refuted`), and without a file name any string is accepted (`C83_type_refuted`). An empty list of analysis objects or breakers is refused (`C83_empty_refuted`).
37. The table of mean square displacements shows bins without any comparison as displacement 0 (`C84_empty_refuted`); with history_steps=1 printResults raises IndexError (`C84_one_step_refuted`).
38. `_atkScript` closes its lists in the branch for the last atom: when no atom has a type of the map they are never closed and the script is not valid Python (`C87_no_atoms`, `C87_refuted`).
39. Updates of bucket processes are not checked (the code has a FIXME there): a positive number of '*' in an update is accepted and silently disables all other changes at that position, while the event still happens and the other positions change (`C88_ignored`, `C88_example`).
## 8. Tests against wrong programs

`seeded/LOG.jsonl` has one line per edit of the model: the definition, the edit, the claim it breaks, the theorems that no longer
prove, and theorems that were tightened because they survived.  The edits are made in a copy of the tree, which is rebuilt with `make -k`.
