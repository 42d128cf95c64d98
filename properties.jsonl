{"id": "C01", "title": "Site numbering is a bijection", "statement": "For a lattice with repetitions (nA,nB,nC) and n basis points, the integer under which the site (i,j,k,b) is stored in KMCLattice.sites() and in the types list is i*nB*nC*n + j*nC*n + k*n + b; the backend's cell-to-index and index-to-cell conversions agree with that numbering and are inverse to each other, so every stored index names exactly one in-range (cell, basis) and vice versa.", "quantifier": "all repetitions >= 1, all basis sizes >= 1, all cells and basis numbers in range, all indices in range", "why_tests_cant": "the number of lattices and cells is unbounded; unit tests look at a few small lattices", "anchors": ["c++/src/latticemap.cpp: indicesFromCell, indexToCell", "c++/src/latticemap.h: basisSiteFromIndex", "python/src/KMCLib/CoreComponents/KMCLattice.py: __generateLatticeSites, _globalIndex"]}
{"id": "C02", "title": "The neighbourhood relation is symmetric", "statement": "If site y is within R cell shells of site x (the neighbour list the backend uses for x contains y) then x is in the neighbour list of y, for any mixture of periodic and open directions.", "quantifier": "all lattices, all periodicity flags, all sites, all R up to the smallest repetition along periodic directions (and any R along open ones)", "why_tests_cant": "needs to hold for every lattice size relative to the range, including lattices smaller than the range where the list wraps onto itself", "anchors": ["c++/src/latticemap.cpp: neighbourIndices"]}
{"id": "C03", "title": "The neighbourhood is exactly the set of sites within R shells", "statement": "neighbourIndices(x,R) contains a site y iff y's cell can be reached from x's cell by a displacement of at most R cells along every axis, wrapping around periodic axes and never leaving the lattice along open axes; every listed index is a valid site, and no site is listed twice when 2R+1 does not exceed the repetitions along periodic axes.", "quantifier": "all lattices, periodicity flags, sites and R", "why_tests_cant": "completeness of a set cannot be tested by sampling", "anchors": ["c++/src/latticemap.cpp: neighbourIndices, supersetNeighbourIndices"]}
{"id": "C04", "title": "Minimum-image wrapping", "statement": "Wrapping a relative coordinate along a periodic direction adds or subtracts a whole number of repetitions, lands in [-L/2, L/2) whenever the input is a difference of two site coordinates of the lattice, is the identity on that interval and idempotent, and leaves open directions untouched.", "quantifier": "all repetitions (odd and even), all coordinate differences, all periodicity flags", "why_tests_cant": "boundary cases at exactly +-L/2 for every L", "anchors": ["c++/src/latticemap.h: wrap(Coordinate&), wrap(Coordinate&,size_t)"]}
{"id": "C05", "title": "A listed (process, site) pair really is possible", "statement": "Whenever a process is listed as available at a site, every local coordinate of the process coincides (to the code's tolerance) with a lattice site around that site and that site's present occupation contains at least the particles the process requires there; wildcard positions require nothing.", "quantifier": "all configurations, processes, sites", "why_tests_cant": "ranges over all process geometries and occupations", "anchors": ["c++/src/matchlist.h: whateverMatch", "c++/src/matchlistentry.h: match", "c++/src/matchlistentry.cpp: samePoint", "c++/src/typebucket.h: match", "c++/src/matcher.cpp: matchIndicesWithProcesses"]}
{"id": "C06", "title": "Every possible event is listed (completeness on periodic lattices)", "statement": "On a lattice periodic in all directions with more than 2R repetitions, if a process applies at the basis site of x, its coordinates are lattice displacements and every required particle is present at the displaced sites then the process is listed as available at x.", "quantifier": "all fully periodic lattices, all processes whose coordinates are lattice displacements, all occupations and sites", "why_tests_cant": "a missing event is invisible to tests of individual steps; requires reasoning about sorting, tolerance and wildcard alignment for all geometries", "anchors": ["c++/src/configuration.cpp: configMatchList", "c++/src/matchlist.cpp: configurationsToMatchList", "c++/src/interactions.cpp: updateProcessMatchLists", "c++/src/matchlist.h: whateverMatch"]}
{"id": "C07", "title": "Implicit wildcards do not change a process", "statement": "Padding a one-basis-site process with implicit wildcards at all surrounding lattice points neither adds nor removes required particles, updates or move vectors: the non-wildcard entries of the padded process are the original entries in the original order, and the padded process matches a site iff the original requirements hold at the aligned sites.", "quantifier": "all processes and all lattice environments", "why_tests_cant": "the padding depends on the whole lattice geometry", "anchors": ["c++/src/interactions.cpp: updateProcessMatchLists"]}
{"id": "C08", "title": "Incremental rematching equals full rematching after any history", "statement": "After any sequence of simulation steps, the set of sites at which each process is listed as available is the same as if every process were matched from scratch at every site of the current configuration; in particular an event is never performed at a site where it no longer applies, and none that became possible is forgotten.", "quantifier": "all well-formed models, all sequences of random numbers, any number of steps", "why_tests_cant": "quantifies over all histories of events; a stale entry can depend on an arbitrary long history", "anchors": ["c++/src/latticemodel.cpp: calculateInitialMatching, singleStep", "c++/src/matcher.cpp: calculateMatching, matchIndicesWithProcesses, updateProcesses", "c++/src/latticemap.cpp: supersetNeighbourIndices"]}
{"id": "C09", "title": "Available-site bookkeeping is a set with consistent counts", "statement": "A process never lists a site twice; adding then removing a site restores the previous set of sites; the number of available sites reported for the model is the sum over processes of the number of listed sites; the per-site rate and multiplicity tables stay aligned with the site list.", "quantifier": "all sequences of additions and removals", "why_tests_cant": "swap-with-last removal bugs depend on the order of operations", "anchors": ["c++/src/process.cpp: addSite, removeSite, isListed", "c++/src/customrateprocess.cpp: addSite, removeSite", "c++/src/interactions.cpp: totalAvailableSites"]}
{"id": "C10", "title": "Total rate is the sum of the rates of all available events", "statement": "At every point of a simulation the total rate used for the time step equals the sum over all listed (process, site) events of that event's rate (rate constant, or custom rate when a rate calculator is used), in exact arithmetic.", "quantifier": "all reachable states", "why_tests_cant": "incrementally maintained sums over all histories", "anchors": ["c++/src/process.cpp: addSite, removeSite, totalRate", "c++/src/customrateprocess.cpp: addSite, removeSite, updateRateTable", "c++/src/interactions.cpp: updateProbabilityTable", "c++/src/interactions.h: totalRate"]}
{"id": "C11", "title": "Bucket events are weighted by the number of ways they can occur", "statement": "For a bucket process that needs m particles of a type at a site holding n of them, the event's contribution to the total rate is the rate constant times the product of the binomials C(n,m) over required types and sites (the multiplicity that the matching code computes).", "quantifier": "all bucket processes and occupations", "why_tests_cant": "the multiplicity is computed and then carried through several layers; unit tests check the layers separately", "anchors": ["c++/src/matchlist.cpp: multiplicity", "c++/src/matcher.cpp: matchIndicesWithProcesses, updateProcesses", "c++/src/process.h: addSite"]}
{"id": "C12", "title": "The multiplicity is the product of binomial coefficients", "statement": "The multiplicity computed for a matching process at a site is the product over its non-wildcard entries and over types with a positive requirement m of C(n,m) with n the present occupation; it is 1 for single-occupancy processes and at least 1 whenever the process matches.", "quantifier": "all match lists and occupations with n >= m", "why_tests_cant": "integer division inside the factorial loop must be exact for every n and m", "anchors": ["c++/src/matchlist.cpp: multiplicity"]}
{"id": "C13", "title": "Processes are selected in proportion to their total rate", "statement": "With the uniform deviate u, process number p is selected exactly when u*R lies in the half-open interval of length R_p assigned to it by the cumulative table, where R_p is the total rate of the process and R the total rate; the intervals of the processes partition (0,R].", "quantifier": "all rate tables, all u in (0,1]", "why_tests_cant": "probability statements over a continuum of deviates and all tables", "anchors": ["c++/src/interactions.cpp: updateProbabilityTable, pickProcessIndex, pairComp"]}
{"id": "C14", "title": "An event that cannot happen is never selected", "statement": "The selected process always has at least one available site, and the selected site is one of the listed sites of that process.", "quantifier": "all reachable states with at least one available site, all deviates the random generator can return (including exactly 0)", "why_tests_cant": "hinges on boundary values of the random deviate which a test run almost never draws", "anchors": ["c++/src/interactions.cpp: pairComp, pickProcessIndex", "c++/src/process.cpp: pickSite", "c++/src/random.cpp: randomDouble01"]}
{"id": "C15", "title": "Sites are selected in proportion to the event rate", "statement": "Given the selected process, site s is selected exactly when u*R_p falls in an interval of length equal to the rate of the event at s; with equal rates every listed site gets an interval of the same length.", "quantifier": "all processes, site lists, rate tables and u in (0,1]", "why_tests_cant": "as C13", "anchors": ["c++/src/process.cpp: pickSite, updateRateTable", "c++/src/customrateprocess.cpp: updateRateTable"]}
{"id": "C16", "title": "Performing an event changes only the sites the process names", "statement": "Performing a process at a site leaves the occupation of every lattice site unchanged except for the sites aligned with process entries that have a non-zero update; the list of affected sites handed to the rematching contains exactly those sites.", "quantifier": "all configurations, processes and sites", "why_tests_cant": "frame property over every other site of the lattice", "anchors": ["c++/src/configuration.cpp: performBucketProcess"]}
{"id": "C17", "title": "Performing a plain process produces the after-configuration", "statement": "If a KMCProcess with elements_before/elements_after matches at a site of a singly-occupied lattice then after performing it the site aligned with entry i holds exactly elements_after[i] (or is unchanged for a wildcard), for every i.", "quantifier": "all processes, configurations and matching sites", "why_tests_cant": "functional correctness over all geometries", "anchors": ["c++/src/configuration.cpp: performBucketProcess", "c++/src/matchlist.cpp: configurationsToMatchList"]}
{"id": "C18", "title": "Particle accounting", "statement": "The number of particles of each type reported by the configuration always equals the number of particles of that type found by counting the sites; performing a process changes the count of type t by the sum over its entries of the update of t, so processes that only permute particles conserve every count.", "quantifier": "all reachable states and processes", "why_tests_cant": "conservation over unbounded histories", "anchors": ["c++/src/configuration.cpp: performBucketProcess, particlesPerType"]}
{"id": "C19", "title": "Occupations never become negative", "statement": "After any number of steps every site holds a non-negative number of particles of every type.", "quantifier": "all models accepted by the constructors, all histories", "why_tests_cant": "depends on the relation between what a process requires and what it removes, for all processes", "anchors": ["c++/src/configuration.cpp: performBucketProcess", "python/src/KMCLib/CoreComponents/KMCBucketProcess.py: __checkUpdateInfo", "c++/src/typebucket.h: match, add"]}
{"id": "C20", "title": "Single occupancy is preserved", "statement": "In a simulation with plain processes on a configuration with exactly one type per site, every site holds exactly one type after any number of steps, so types() and the XYZ/lattice trajectories are always well defined.", "quantifier": "all plain models, all histories", "why_tests_cant": "invariant over histories", "anchors": ["c++/src/configuration.cpp: performBucketProcess", "python/src/KMCLib/CoreComponents/KMCConfiguration.py: types"]}
{"id": "C21", "title": "Atom identities are never lost or duplicated", "statement": "After any number of steps the map from sites to atom ids is a permutation of the initial ids, provided the move vectors of each process permute the positions they connect.", "quantifier": "all processes accepted by the KMCProcess constructor, all histories", "why_tests_cant": "histories and all move vector combinations", "anchors": ["c++/src/configuration.cpp: performBucketProcess", "c++/src/process.cpp: Process::Process (id moves)", "python/src/KMCLib/CoreComponents/KMCProcess.py: __checkValidMoveVectors, __reconstructMoveVectors"]}
{"id": "C22", "title": "Atom coordinates track the moves", "statement": "The unwrapped coordinate of an atom is its start coordinate plus the sum of the move vectors applied to it, and always agrees with the coordinate of the site that carries its id up to a whole number of lattice periods along periodic directions.", "quantifier": "all histories of processes whose coordinates are lattice displacements", "why_tests_cant": "history-dependent; crossing a periodic boundary many times", "anchors": ["c++/src/configuration.cpp: performBucketProcess"]}
{"id": "C23", "title": "Atom ids keep their element", "statement": "In a simulation where types only move (the multiset of types over the moved sites is unchanged and move vectors carry each type to a site where it appears after the move), the element recorded for each atom id never changes, and always equals the type at the site carrying that id.", "quantifier": "all histories", "why_tests_cant": "history-dependent consistency of two parallel tables", "anchors": ["c++/src/configuration.cpp: performBucketProcess"]}
{"id": "C24", "title": "Time moves forward with the exponential clock", "statement": "Each step advances the simulation time by -ln(u)/R with R the total rate and u the deviate in (0,1]; the time never decreases, a deviate of 0 is redrawn, and starting from time t0 the time after n steps is t0 plus the sum of the n increments.", "quantifier": "all total rates > 0, all deviate sequences that contain a non-zero value", "why_tests_cant": "real-valued statement over all deviates", "anchors": ["c++/src/simulationtimer.cpp: propagateTime", "c++/src/latticemodel.cpp: propagateTime"]}
{"id": "C25", "title": "Number of steps, dumps and analysis calls", "statement": "A run of N steps without early stop advances the model exactly N times, with step-based dumping appends exactly one frame for step 0 and one for every multiple of dump_interval up to N in increasing order, and calls registerStep of each analysis object exactly for the multiples of analysis_interval.", "quantifier": "all N, dump and analysis intervals >= 1, all analysis/trajectory combinations", "why_tests_cant": "arithmetic over all interval combinations", "anchors": ["python/src/KMCLib/CoreComponents/KMCLatticeModel.py: run", "python/src/KMCLib/CoreComponents/KMCControlParameters.py"]}
{"id": "C26", "title": "Clean-up on every exit path", "statement": "If the main loop of a run ends in any way (completed, breaker, no more available processes, exception in a plugin or in the backend) the trajectory is flushed and afterwards every analysis object is finalised exactly once, unless flushing or an earlier finalising call itself fails.", "quantifier": "all exit points and plugin behaviours", "why_tests_cant": "all crash points of the loop", "anchors": ["python/src/KMCLib/CoreComponents/KMCLatticeModel.py: run"]}
{"id": "C27", "title": "Breakers stop the run at the first requested step", "statement": "A run stops after the first step that is a multiple of a breaker's interval and at which that breaker returns True, never earlier and never later, and breakers are not consulted at other steps.", "quantifier": "all breaker lists, intervals >= 1 and breaker behaviours", "why_tests_cant": "all behaviours of user supplied code", "anchors": ["python/src/KMCLib/CoreComponents/KMCLatticeModel.py: run", "python/src/KMCLib/PluginInterfaces/KMCBreakerPlugin.py"]}
{"id": "C28", "title": "Trajectory buffering loses and duplicates nothing", "statement": "For any buffer limits, any wall-clock readings and any placement of flush calls, after the final flush the file contains exactly the appended frames, once each and in order of appending.", "quantifier": "all sequences of append and flush, all clock values, all buffer limits", "why_tests_cant": "interleavings of clock driven flushes", "anchors": ["python/src/KMCLib/Utilities/Trajectory/Trajectory.py: append", "python/src/KMCLib/Utilities/Trajectory/LatticeTrajectory.py: flush, __writeToFile", "python/src/KMCLib/Utilities/Trajectory/XYZTrajectory.py: flush"]}
{"id": "C29", "title": "Every lattice configuration can be written to a lattice trajectory", "statement": "Writing a frame succeeds for every configuration with at least one site.", "quantifier": "all configurations", "why_tests_cant": "size-dependent corner case", "anchors": ["python/src/KMCLib/Utilities/Trajectory/LatticeTrajectory.py: __writeToFile"]}
{"id": "C30", "title": "The rate cache is transparent", "statement": "If the custom rate depends only on the process and on the occupation of the sites within the cutoff, a simulation with rate caching assigns every event the same rate as one without caching, at every step of every history.", "quantifier": "all rate functions with that property, all histories, all cache evictions (assuming different keys for the different environments that come up)", "why_tests_cant": "history of cache fills, rotations and clears", "anchors": ["c++/src/matcher.cpp: calculateMatching, updateSingleRate", "c++/src/ratetable.cpp", "c++/src/hash.cpp: hashCustomRateInput"]}
{"id": "C31", "title": "The rate table is a bounded cache that only returns stored values", "statement": "After any sequence of store operations the rate table holds at most 8 x 1024 entries (each sub-table at most 1024), a lookup that reports a hit returns the value most recently stored under that key, and a value is found right after it was stored.", "quantifier": "all sequences of store/lookup operations", "why_tests_cant": "unbounded operation sequences", "anchors": ["c++/src/ratetable.cpp: store, stored, retrieve"]}
{"id": "C32", "title": "Results do not depend on the number of MPI ranks", "statement": "Splitting a list of tasks over the ranks, working on the parts and joining gives the same list as working on the whole list, for every number of ranks, including fewer tasks than ranks; hence matching results are independent of the number of ranks.", "quantifier": "all task lists and all rank counts >= 1", "why_tests_cant": "all combinations of sizes", "anchors": ["c++/src/mpiroutines.h: splitOverProcesses, joinOverProcesses", "c++/src/mpiroutines.cpp: determineChunks", "c++/src/matcher.cpp: calculateMatching"]}
{"id": "C33", "title": "Chunks are a balanced partition", "statement": "The chunk bounds assigned to the ranks are disjoint, consecutive, cover all tasks, and their sizes differ by at most one.", "quantifier": "all list lengths and rank counts >= 1", "why_tests_cant": "all combinations of sizes", "anchors": ["c++/src/mpiroutines.cpp: determineChunks"]}
{"id": "C34", "title": "Composition analysis reports block averages of the true particle counts", "statement": "Each reported data point is the arithmetic mean of the per-type particle counts over the registered steps of its block; the blocks are consecutive and together with the unfinished last block contain every registered step exactly once.", "quantifier": "all sequences of registered times and configurations", "why_tests_cant": "arbitrary histories", "anchors": ["python/src/KMCLib/Analysis/Composition.py: setup, registerStep, times"]}
{"id": "C35", "title": "Composition analysis reports each block at its time", "statement": "times()[i] lies within the simulation-time interval covered by block i.", "quantifier": "all sequences of times", "why_tests_cant": "depends on accumulated drift over the whole history", "anchors": ["python/src/KMCLib/Analysis/Composition.py: times, registerStep"]}
{"id": "C36", "title": "Time step distribution is a complete histogram", "statement": "After n registered steps the histogram entries sum to n and bin b counts exactly the steps whose time increment lies in [b*binsize,(b+1)*binsize); growing the histogram never loses counts and always terminates.", "quantifier": "all histories of times, all positive bin sizes", "why_tests_cant": "growth of the array over arbitrary increments", "anchors": ["python/src/KMCLib/Analysis/TimeStepDistribution.py: registerStep, finalize"]}
{"id": "C37", "title": "Process statistics count every tracked event once", "statement": "The sum of the finished block counts and the running count equals the number of registered steps whose latest process is tracked; the spatially resolved count of a site is the number of tracked events at it, and the sum over sites is the total.", "quantifier": "all histories", "why_tests_cant": "arbitrary histories", "anchors": ["python/src/KMCLib/Analysis/ProcessStatistics.py: setup, registerStep"]}
{"id": "C38", "title": "Spatial process statistics are normalised with the elapsed time", "statement": "After finalisation the value reported for a site is the number of tracked events at it divided by the time the analysis covered.", "quantifier": "all histories", "why_tests_cant": "depends on when blocks are closed", "anchors": ["python/src/KMCLib/Analysis/ProcessStatistics.py: finalize"]}
{"id": "C39", "title": "MSD history buffers hold the last positions", "statement": "For every tracked atom the history buffer holds the coordinates and times of its start and its most recent moves, newest first, at most history_steps of them; each move bins the squared displacement and time difference against each stored entry, exactly once, in the bin given by the time difference.", "quantifier": "all histories of moves", "why_tests_cant": "arbitrary histories and buffer lengths", "anchors": ["c++/src/ontheflymsd.cpp: OnTheFlyMSD, registerStep, calculateAndBinMSD"]}
{"id": "C40", "title": "Bucket entries are normalised without losing particles", "statement": "Normalising a bucket entry (a string, an (int,string) pair or a list of those) gives a list with one entry per distinct name, in order of first appearance, whose count is the sum of the counts given for that name; normalising is idempotent; anything else is rejected with an Error.", "quantifier": "all inputs of the accepted formats and all other values", "why_tests_cant": "all nested lists; rejection must hold for all malformed inputs", "anchors": ["python/src/KMCLib/Utilities/CheckUtilities.py: checkAndNormaliseBucketEntry"]}
{"id": "C41", "title": "Short and long types formats describe the same configurations", "statement": "A configuration built in the long format has at every site the type of the last entry naming that site, or the default type when there is none; entries out of range are rejected, and the short format list obtained that way gives the same configuration.", "quantifier": "all lattices and lists of entries", "why_tests_cant": "all orders and duplicates", "anchors": ["python/src/KMCLib/CoreComponents/KMCConfiguration.py: __checkAndSetLongTypes, __checkAndSetShortTypes", "python/src/KMCLib/CoreComponents/KMCLattice.py: _globalIndex"]}
{"id": "C42", "title": "The configuration has one bucket per lattice site", "statement": "A constructed KMCConfiguration has exactly as many type entries as its lattice has sites, whatever input format was used; otherwise construction fails.", "quantifier": "all inputs in all three formats", "why_tests_cant": "validation must hold for every input length", "anchors": ["python/src/KMCLib/CoreComponents/KMCConfiguration.py: __checkAndSetBucketsTypes, __checkAndSetShortTypes"]}
{"id": "C43", "title": "Type names and type numbers correspond one to one", "statement": "The mapping from type names to the numbers used in the backend is injective, has the wildcard at 0, covers every type present, and the number of backend types is one more than the number of possible types.", "quantifier": "all possible_types lists, including ones with repeated names", "why_tests_cant": "all inputs", "anchors": ["python/src/KMCLib/CoreComponents/KMCConfiguration.py: __checkAndSetTypes", "c++/src/configuration.cpp: Configuration, particlesPerType"]}
{"id": "C44", "title": "Accepted move vectors explain the process", "statement": "If explicit move vectors are accepted for a KMCProcess, applying them to elements_before gives elements_after, every vector starts and ends at process coordinates, and no two vectors start at or end at the same position.", "quantifier": "all coordinates, element lists and move vector lists", "why_tests_cant": "all combinations of vectors", "anchors": ["python/src/KMCLib/CoreComponents/KMCProcess.py: __checkValidMoveVectors, __checkMoveVectorsFormat"]}
{"id": "C45", "title": "Default move vectors are the swap", "statement": "When no move vectors are given and exactly two positions differ between before and after and hold each other's type, the generated vectors are v and -v connecting the two; in all other cases there are no move vectors.", "quantifier": "all processes", "why_tests_cant": "all element lists", "anchors": ["python/src/KMCLib/CoreComponents/KMCProcess.py: __reconstructMoveVectors"]}
{"id": "C46", "title": "Control parameter validation", "statement": "The control parameters accepted by the constructor have non-negative integer steps and seed, at most one of the two dump modes with a positive interval, and a positive analysis interval, with documented defaults; all other inputs are rejected.", "quantifier": "all parameter values of all types", "why_tests_cant": "all inputs", "anchors": ["python/src/KMCLib/CoreComponents/KMCControlParameters.py: __init__", "python/src/KMCLib/Utilities/CheckUtilities.py: checkPositiveInteger"]}
{"id": "C47", "title": "A run never divides by a zero interval", "statement": "With control parameters accepted by the constructor the main loop never fails because an interval is zero.", "quantifier": "all accepted control parameters", "why_tests_cant": "all inputs", "anchors": ["python/src/KMCLib/CoreComponents/KMCLatticeModel.py: run", "python/src/KMCLib/CoreComponents/KMCControlParameters.py"]}
{"id": "C48", "title": "Time based dumping gives one frame per interval", "statement": "With dump_time_interval dt, the trajectory holds a frame for the initial state and the k-th later frame shows the state of the system at simulation time (start + k*dt), i.e. the state before the first event later than that time, with one frame for each elapsed interval.", "quantifier": "all sequences of time increments, any number of runs of the same model", "why_tests_cant": "depends on all histories of time increments", "anchors": ["python/src/KMCLib/CoreComponents/KMCLatticeModel.py: run"]}
{"id": "C49", "title": "Analysis, trajectories and breakers do not influence the dynamics", "statement": "The sequence of configurations and times of a run depends only on the initial state, the processes and the random deviates, not on which trajectory or analysis objects are attached or their intervals; splitting a run in two consecutive runs with the same deviates gives the same sequence.", "quantifier": "all observers and intervals, all run lengths", "why_tests_cant": "non-interference is a two-run property over all observers", "anchors": ["python/src/KMCLib/CoreComponents/KMCLatticeModel.py: run", "c++/src/latticemodel.cpp: singleStep, propagateTime"]}
{"id": "C50", "title": "Steps never access memory out of bounds", "statement": "Starting from a model whose processes are consistent with the lattice, no simulation step indexes outside any table, for any history and any deviates.", "quantifier": "all well-formed models, all histories", "why_tests_cant": "memory safety over all histories", "anchors": ["c++/src/latticemodel.cpp: singleStep", "c++/src/configuration.cpp: performBucketProcess", "c++/src/matcher.cpp"]}
{"id": "C51", "title": "Rematching range covers the influence of every event", "statement": "If performing an event at x changes the occupation at y, then every site z for which some process entry looks at y is within the set of sites that is rematched after the event.", "quantifier": "all processes (including ones with fractional coordinates), lattices and sites", "why_tests_cant": "depends on the rounding of coordinates to cell shells for all real coordinates", "anchors": ["c++/src/matchlist.cpp: configurationsToMatchList (range)", "c++/src/process.cpp: Process (range)", "c++/src/customrateprocess.cpp", "c++/src/interactions.cpp: maxRange"]}
{"id": "C52", "title": "Order of input coordinates is irrelevant", "statement": "Two processes or two neighbourhoods that differ only in the order in which coordinates are listed produce the same sorted match list, so the matching result is the same.", "quantifier": "all permutations of all coordinate lists with distinct positions", "why_tests_cant": "all permutations", "anchors": ["c++/src/matchlistentry.cpp: operator<", "c++/src/process.cpp: Process (sort)", "c++/src/configuration.cpp: configMatchList (sort)"]}
{"id": "C53", "title": "Equality of processes", "statement": "Process equality is reflexive and symmetric, and equal processes have the same coordinates (to tolerance), elements and basis sites.", "quantifier": "all pairs of processes", "why_tests_cant": "all pairs", "anchors": ["python/src/KMCLib/CoreComponents/KMCProcess.py: __eq__"]}
{"id": "C54", "title": "Interactions reject unknown types", "statement": "Building the interactions of a model fails with an Error iff some process mentions (in its match information) a type which is not a possible type of the configuration; no unknown type ever reaches the backend.", "quantifier": "all process lists and possible types", "why_tests_cant": "all inputs", "anchors": ["python/src/KMCLib/CoreComponents/KMCInteractions.py: _backend", "python/src/KMCLib/CoreComponents/KMCBucketProcess.py: _update"]}
{"id": "C55", "title": "Two models do not disturb each other", "statement": "Two KMCLatticeModel objects built from the same KMCInteractions object and different configurations behave exactly as if each had its own copy of the interactions.", "quantifier": "all pairs of models, all interleavings of their steps", "why_tests_cant": "aliasing shows only for particular interleavings", "anchors": ["c++/src/latticemodel.cpp: LatticeModel", "c++/src/interactions.h: Interactions (process_pointers_)", "python/src/KMCLib/CoreComponents/KMCInteractions.py: _backend"]}
{"id": "C56", "title": "Index-to-cell conversion is exact in floating point", "statement": "The double precision computation of the cell of a site index returns the true cell for every index of every lattice that fits in an int.", "quantifier": "all repetitions, basis sizes and indices representable as 32-bit int", "why_tests_cant": "rounding boundary cases for large lattices", "anchors": ["c++/src/latticemap.cpp: indexToCell"]}
{"id": "C57", "title": "Total rates do not drift in floating point", "statement": "In double precision, after adding and removing sites the total rate of a process with no available site is exactly zero.", "quantifier": "all sequences of additions and removals, all rates", "why_tests_cant": "rounding over all histories", "anchors": ["c++/src/process.cpp: addSite, removeSite", "c++/src/customrateprocess.cpp: removeSite"]}
{"id": "C58", "title": "Block averages of a registered value", "statement": "The blocker used for the statistics of the mean square displacement stores for every bin the sum (mean times block size) of each complete block of consecutively registered values; registering more values never changes completed blocks. With at least two complete blocks it reports the standard error of the block means about the mean of all values, and the error estimate of that; with fewer it reports -1. The block size the Python class passes switches it off.", "quantifier": "all sequences of registered values, bins and block sizes", "why_tests_cant": "arbitrary histories", "anchors": ["c++/src/blocker.cpp: registerStep, values"]}
{"id": "C59", "title": "Rate calculator input is the true environment", "statement": "The custom rate function receives exactly the occupations of the sites within the cutoff of the event site (nearest first), and as occupations after the event the same list with the event's updates applied.", "quantifier": "all configurations, processes, cutoffs", "why_tests_cant": "all environments", "anchors": ["c++/src/matcher.cpp: updateSingleRate", "python/src/KMCLib/PluginInterfaces/KMCRateCalculatorPlugin.py: backendRateCallbackBuckets"]}
{"id": "C60", "title": "The simulation stops with an Error when nothing can happen", "statement": "run() raises an Error before taking a step from a state with no available event, and never hangs on a state whose total rate is zero.", "quantifier": "all reachable states", "why_tests_cant": "absorbing states reached after arbitrary histories", "anchors": ["python/src/KMCLib/CoreComponents/KMCLatticeModel.py: run", "c++/src/simulationtimer.cpp: propagateTime"]}
{"id": "C61", "title": "Lattice sites are distinct and lie in the cell they are numbered by", "statement": "Every generated site coordinate is basis point + cell, and two different indices have different coordinates when the basis points are distinct and in [0,1).", "quantifier": "all lattices and bases", "why_tests_cant": "all sizes", "anchors": ["python/src/KMCLib/CoreComponents/KMCLattice.py: __generateLatticeSites", "python/src/KMCLib/CoreComponents/KMCUnitCell.py: __init__"]}
{"id": "C62", "title": "Sparse type information round trip", "statement": "The bucket format reported for a configuration (numbers per type) read back as input gives the same occupations; converting normalised entries to the backend's repeated-name lists and back is the identity on positive counts (an entry with count 0 disappears).", "quantifier": "all bucket lists", "why_tests_cant": "all inputs", "anchors": ["python/src/KMCLib/Utilities/ConversionUtilities.py: bucketListToStdVectorStdVectorString, toShortBucketsFormat, stdVectorTypeBucketToPython"]}
{"id": "C63", "title": "MSD results are means over the comparisons of a bin", "statement": "After a run, result r of time bin b is the mean over all pairs of stops of an atom that fall in the bin of the squared displacement in direction r (0 if none), the time of the bin is its centre, the effective number of steps is the mean number of stops between the stops compared, and the safe cutoff is the first bin in which comparisons at the largest lag exceed one percent of their maximum.", "quantifier": "all runs, numbers of bins, history lengths", "why_tests_cant": "arbitrary histories of moves", "anchors": ["python/src/KMCLib/Analysis/OnTheFlyMSD.py: finalize, safeCutoff", "c++/src/ontheflymsd.cpp"]}
{"id": "C64", "title": "An accepted MSD analysis works", "statement": "If the constructor of OnTheFlyMSD accepts its arguments and the tracked type is one of the possible types then setup and all steps of every simulation succeed.", "quantifier": "all constructor arguments and simulations", "why_tests_cant": "all argument combinations and histories", "anchors": ["python/src/KMCLib/Analysis/OnTheFlyMSD.py: __init__, setup", "c++/src/ontheflymsd.cpp: OnTheFlyMSD"]}
{"id": "C65", "title": "Bucket processes reach the backend as given", "statement": "If a KMCBucketProcess with well-formed arguments is accepted and names possible types only, building the interactions succeeds and the backend process holds, at every position (relative to the first), as many particles of each type as the entry asks for in total, for each type the last change given, the rate, and the basis sites that exist in the cell.", "quantifier": "all coordinates, match entries, updates, basis lists and rates", "why_tests_cant": "all spellings of entries and all combinations", "anchors": ["python/src/KMCLib/CoreComponents/KMCBucketProcess.py: __init__, _update", "python/src/KMCLib/CoreComponents/KMCInteractions.py: _backend", "c++/src/matchlist.cpp: configurationsToMatchList"]}
{"id": "C66", "title": "The simulation is the Markov chain of the processes given", "statement": "With plain processes whose rows lie on the lattice, a simulation can be started and is the Markov chain of the rows and rates given: the total rate is the sum of the rates of all the events possible in the state shown, every step is one of these events and changes the state as its rows say, an event is selected with probability rate over total rate (and a next state with the sum of the rates of the events that lead to it), the times between events are -ln(v) over the total rate of the state left, and every history of the chain is a history of the simulation for suitable random numbers.", "quantifier": "all lattices, types, processes, states of runs, deviates, and histories of any length", "why_tests_cant": "a statement about all histories and about probabilities; tests see a few histories of a few systems", "anchors": ["c++/src/latticemodel.cpp: LatticeModel, singleStep, propagateTime", "c++/src/matcher.cpp: isMatch, calculateMatching", "c++/src/interactions.cpp: pickProcess, updateProbabilityTable, totalRate", "c++/src/configuration.cpp: performProcess", "python/src/KMCLib/CoreComponents/KMCLatticeModel.py: run"]}
{"id": "C67", "title": "Unit cells and lattices are read as given, and coinciding or dependent geometry is refused", "statement": "A unit cell is accepted exactly if its cell vectors are three coordinates with a volume of at least 1e-5 and its basis points are a non-empty list of coordinates in [0, 1); a lattice exactly if the repetitions are three positive integers (default 1, 1, 1) and the periodicity three booleans (default true). Anything else gives an Error, not a crash. Cell vectors that are independent are accepted; fractional coordinates determine Cartesian ones uniquely; site (i, j, k, m) is at basis point m plus (i, j, k), at the index the numbering states, and no two sites share a place, also around periodic axes.", "quantifier": "all Python values given as arguments; all cells and lattices of any size", "why_tests_cant": "all argument shapes and all lattice sizes", "anchors": ["python/src/KMCLib/CoreComponents/KMCUnitCell.py: __init__, checkCellVectors, transformToCartesian", "python/src/KMCLib/CoreComponents/KMCLattice.py: __init__, __checkRepetitions, __checkPeriodic, _generateLatticeSites", "python/src/KMCLib/Utilities/CheckUtilities.py"]}
{"id": "C68", "title": "A Python script runs the Markov chain its arguments describe", "statement": "Take a script that makes a unit cell, a lattice, a configuration (short or long type format), plain processes (with or without move vectors, positions given anywhere) and interactions, in the usual Python values. If the arguments satisfy what the constructors ask for, every constructor accepts them, the model can be made, and types() gives the types the script set. From then on, whatever random numbers are drawn, each step is an event of the Markov chain read off the arguments (positions relative to the first one, types before and after, rate, basis point), taken with probability rate over total rate after a waiting time of -ln v over the total rate, types() reports the state of that chain, and every history of the chain is a run of the script.", "quantifier": "all scripts of this kind (lattices, type lists, processes of any size), all random numbers, all numbers of steps", "why_tests_cant": "it ranges over all scripts and all runs, and it is about probabilities", "anchors": ["python/src/KMCLib/CoreComponents/KMCUnitCell.py", "python/src/KMCLib/CoreComponents/KMCLattice.py", "python/src/KMCLib/CoreComponents/KMCConfiguration.py: __init__, types", "python/src/KMCLib/CoreComponents/KMCProcess.py: __init__", "python/src/KMCLib/CoreComponents/KMCInteractions.py: __init__, _backend", "python/src/KMCLib/CoreComponents/KMCLatticeModel.py: _backend", "c++/src/latticemodel.cpp"]}
{"id": "C69", "title": "Interactions use the rate calculator that was set last, and hand the processes over as given", "statement": "KMCInteractions accepts exactly a non-empty list of processes and a bool (default True) for implicit wildcards; setRateCalculator accepts exactly None, a class, or the name of a builtin calculator; anything else is an Error. The calculator set last before the first run is the one used, made with the user's configuration, and refused unless it derives from the plugin class; once the backend exists, setting another one has no effect. Every process reaches the backend under its position in the list as number, with its rate and those of its basis points that the lattice has; with a calculator, its rates are asked for, cached exactly if cacheRates() is true and the process is not excluded, and the calculator sees the surroundings up to cutoff() but never less than the process itself. Without an answer of cutoff() it sees as far as the largest process reaches, as documented.", "quantifier": "all argument values, all process lists, all sequences of setRateCalculator calls, all calculators", "why_tests_cant": "it is about every order of calls and every combination of calculator answers", "anchors": ["python/src/KMCLib/CoreComponents/KMCInteractions.py: __init__, setRateCalculator, _backend", "python/src/KMCLib/PluginInterfaces/KMCRateCalculatorPlugin.py: cutoff, cacheRates, excludeFromCaching", "c++/src/customrateprocess.cpp", "c++/src/process.cpp"]}
{"id": "C70", "title": "With bucket processes and rate calculators, too, the simulation is the Markov chain of the given processes and rates", "statement": "For any mixture of plain and bucket processes, with several particles per site, and with rate constants or a user's rate calculator (cached or not): the state of the model is the numbers of particles of each type at each site; a process can happen at a site exactly if every row finds the particles it asks for; it then changes the numbers as its rows say and changes nothing else; the rate of the event is the rate constant, or what the user's function returns for a correct account of the surroundings in the present state. Whatever random numbers are drawn, each step is an event of this chain, taken with probability rate over total rate after a waiting time of -ln v over the total rate; every history of the chain is a run of the program.", "quantifier": "all lattices, configurations, processes, calculators, random numbers and numbers of steps", "why_tests_cant": "it is about all runs and about probabilities; a test sees one run at a time, and stale or wrong rates show only in particular histories", "anchors": ["c++/src/latticemodel.cpp: singleStep", "c++/src/matcher.cpp: calculateMatching, updateSingleRate", "c++/src/interactions.cpp: pickProcess, totalRate", "c++/src/process.cpp: pickSite", "c++/src/configuration.cpp: performBucketProcess, performProcess", "c++/src/customrateprocess.cpp", "python/src/KMCLib/PluginInterfaces/KMCRateCalculatorPlugin.py"]}
{"id": "C71", "title": "A lattice trajectory file is a Python program that gives back what was recorded", "statement": "Executing a lattice trajectory file as a Python program defines version, creation_time, sites, times, steps and types. sites are the sites of the lattice to six decimals; times, steps and types have one entry for each frame that was appended and written, in order: the time to eleven digits (exactly, if it has no more digits), the step number, and the types that the configuration had (names, or the number of particles of each type at each site). This holds at every moment of the run for the frames that have left the buffer, and for all frames after a flush.", "quantifier": "all lattices, times, steps, types, buffer limits, clock readings and sequences of append and flush", "why_tests_cant": "rounding, row breaks, empty sites and the moments of flushing are unbounded; a test sees a few fixed files", "anchors": ["python/src/KMCLib/Utilities/Trajectory/LatticeTrajectory.py: __writeHeader, _storeData, flush, __writeToFile", "python/src/KMCLib/Utilities/Trajectory/Trajectory.py: append"]}
{"id": "C72", "title": "A model written as a script is read back as the same model", "statement": "Take a lattice, a configuration, processes and interactions made by the constructors. The script that the configuration, the interactions or the lattice model writes, with the import line above it, is a Python program; reading it with KMCConfigurationFromScript, KMCInteractionsFromScript or KMCLatticeModelFromScript gives an object with the same cell, basis points, repetitions and periodicity, the same types with the same numbers, and the same processes (positions, types before and after, move vectors, basis points, rate) in the same order; the rate calculator is not part of the script. Every number is written with a relative error of at most 5e-7, exactly if it has at most seven digits.", "quantifier": "all lattices, type lists, process lists of any size with numbers of at most seven digits and names that can be quoted; all numbers for the error bound", "why_tests_cant": "the texts have unboundedly many rows, line breaks and numbers, and reading is the execution of a program; a test compares a few fixed texts", "anchors": ["python/src/KMCLib/CoreComponents/KMCUnitCell.py: _script", "python/src/KMCLib/CoreComponents/KMCLattice.py: _script", "python/src/KMCLib/CoreComponents/KMCConfiguration.py: _script, KMCConfigurationFromScript", "python/src/KMCLib/CoreComponents/KMCProcess.py: _script", "python/src/KMCLib/CoreComponents/KMCInteractions.py: _script, KMCInteractionsFromScript", "python/src/KMCLib/CoreComponents/KMCLatticeModel.py: _script, KMCLatticeModelFromScript", "python/src/KMCLib/Utilities/SaveAndReadUtilities.py: scriptComponent"]}
{"id": "C73", "title": "A script with plain and bucket processes and a rate calculator simulates the Markov chain its arguments describe", "statement": "Take a script that constructs a unit cell, a lattice, a configuration whose sites hold one or several particles, plain and bucket processes, and interactions with or without a rate calculator. If its arguments describe a Markov chain on the numbers of particles at the sites, the constructors accept them; types() then shows the particles the script gave; in every later state the total rate is that of the chain in the state types() shows, the next event has the probability rate / total rate, where the rate is the rate constant or what the calculator returns for the surroundings up to its cutoff, cached or not, and the runs with the clock are exactly the histories of the chain.", "quantifier": "all arguments that describe a chain, all lattices, numbers of particles and processes, all rate functions that depend only on what they are told, all random numbers, any number of steps, any number of MPI ranks", "why_tests_cant": "whole-program statement over all scripts, rate functions and histories; a test sees one run of one script", "anchors": ["python/src/KMCLib/CoreComponents/KMCConfiguration.py: KMCConfiguration, types", "python/src/KMCLib/CoreComponents/KMCBucketProcess.py: KMCBucketProcess", "python/src/KMCLib/CoreComponents/KMCProcess.py: KMCProcess", "python/src/KMCLib/CoreComponents/KMCInteractions.py: KMCInteractions, _backend", "python/src/KMCLib/CoreComponents/KMCLatticeModel.py: KMCLatticeModel, run", "c++/src/latticemodel.cpp: singleStep, propagateTime"]}
{"id": "C74", "title": "A run is determined by its settings, and all MPI processes make the same run", "statement": "run() sets the type of the random number generator and seeds it. With the same type and the same seed a run makes the same steps at the same times, whatever happened in the process before: the steps use the numbers of the seeded generator in order, first for the clock, then for the process, then for the site. With several MPI processes, each with its own copy of the model and of the generators, all processes end with the same configuration, the same listed events and the same time, namely those of a run on a single process; none waits for the others forever. A seed taken from the time is the same on all processes.", "quantifier": "all engines, seeds, models, numbers of steps, numbers of MPI processes, clocks of the processes and earlier uses of the generators", "why_tests_cant": "ranges over all histories of the processes before the run and over all numbers of processes; a test runs a few of them, and processes that go different ways still look right one by one", "anchors": ["c++/src/random.cpp: setRngType, seedRandom, randomDouble01", "c++/src/simulationtimer.cpp: propagateTime", "c++/src/mpiroutines.h: splitOverProcesses, joinOverProcesses", "c++/src/mpiroutines.cpp: distributeToAll", "c++/src/matcher.cpp: calculateMatching, matchIndicesWithProcesses", "python/src/KMCLib/CoreComponents/KMCLatticeModel.py: run"]}
{"id": "C75", "title": "The key under which a rate is stored identifies the environment it was computed for", "statement": "The key of an environment (process number and occupation of the sites around) is the MD5 digest, as defined in RFC 1321, of these integers, folded to 64 bits by exclusive or of its halves; this holds for environments of every size, and a digest does not depend on the portions in which the bytes are given. Different environments have different keys. The digest can be had as text, from which it can be read back.", "quantifier": "all sequences of integers, all texts, all ways to cut them into portions", "why_tests_cant": "the program's tests compare a handful of digests; errors in block boundaries, length counters and padding show only at particular lengths, and collisions only for particular pairs", "anchors": ["c++/src/hash.cpp: hash64MD5xor, md5Core, hashMD5", "c++/externals/zip/md5.tar.gz: md5.c: MD5_Init, MD5_Update, MD5_Final, body"]}
{"id": "C76", "title": "The reported standard deviations are the statistical errors of the mean square displacements", "statement": "For every direction and every bin that holds data, stdDev() of the mean square displacement analysis is the standard deviation of the mean over K overlapping displacements of n steps of a random walk, where n is the mean number of steps of the data in the bin and K is the number of displacements of that many steps in the run. It is a real number, never negative, and it is 0 only for bins without data.", "quantifier": "all runs, all numbers of history steps, bins and atoms, all directions", "why_tests_cant": "the tests compare numbers with numbers printed by the same code; a wrong index into the counts gives plausible values", "anchors": ["python/src/KMCLib/Analysis/OnTheFlyMSD.py: finalize, stdDev", "c++/src/ontheflymsd.cpp: calculateAndBinMSD, hstepCounts"]}
{"id": "C77", "title": "The printed tables show the results", "statement": "printResults of the process statistics, composition and time step analyses writes, on the master process only, one line per reported block or bin. Reading the numbers of a line back gives the time of the block or bin, the count or means, and the rates or fractions of exactly that block or bin, to the printed number of digits; the count printed with a time t is the number of events up to t.", "quantifier": "all runs, intervals, bin sizes, lists of processes and types", "why_tests_cant": "the tests compare a few short outputs with reference text produced by the same code; rounding, widths and the pairing of times with counts must hold for all runs", "anchors": ["python/src/KMCLib/Analysis/ProcessStatistics.py: printResults", "python/src/KMCLib/Analysis/Composition.py: printResults", "python/src/KMCLib/Analysis/TimeStepDistribution.py: printResults"]}
{"id": "C78", "title": "An XYZ trajectory file says where the atoms were", "statement": "After the final flush an XYZ trajectory file starts with the cell vectors, repetitions and periodicity of the lattice, followed by one frame per appended step, in order. Reading the numbers back gives each time and each coordinate of each atom to eleven significant digits, and the step numbers, the numbers of repetitions and the types exactly.", "quantifier": "all lattices, all sequences of appended frames and flushes, any buffer limits and wall clock readings", "why_tests_cant": "the tests compare a few short files with reference text; the formats must be readable for all magnitudes and signs and any placement of flushes", "anchors": ["python/src/KMCLib/Utilities/Trajectory/XYZTrajectory.py: __writeHeader, _storeData, flush"]}
{"id": "C79", "title": "The trajectory file of a run shows a history of the Markov chain, from the script to the file", "statement": "Take a script that makes a lattice, a configuration, processes (plain or bucket, with rate constants or a rate calculator) and a model, and runs it with a lattice trajectory and a dump interval d. When the run is over, the trajectory file is a Python program; executed, it has the coordinates of the sites and the frames of the steps 0, d, 2d, ... The frames show the states and times of one history of the continuous time Markov chain that the processes describe, beginning with the particles of the script. This holds however the run ends. Without breakers the run makes all its steps unless the chain comes to a state in which no event has a rate, and then types() and the clock are those of the end of the same history.", "quantifier": "all scripts with proper arguments, all run lengths, dump intervals, analysis objects and breakers, all numbers of MPI ranks, all sequences of random numbers, all buffer limits", "why_tests_cant": "the functional tests run one system with one seed and compare a file with a reference; here every script, every random sequence and every placement of flushes must give a history of the right chain", "anchors": ["python/src/KMCLib/CoreComponents/KMCLatticeModel.py: run", "python/src/KMCLib/Utilities/Trajectory/LatticeTrajectory.py", "c++/src/latticemodel.cpp: singleStep, propagateTime", "c++/src/simulationtimer.cpp: propagateTime", "python/src/KMCLib/CoreComponents/KMCConfiguration.py: types"]}
{"id": "C80", "title": "Several runs on one model: each goes on where the one before ended, with random numbers of its own seed", "statement": "run can be called several times on one KMCLatticeModel. The first call starts from the configuration of the script at time 0, each later one from the configuration and the time in which the call before it ended, also when that call ended with an Error. Each call uses the numbers of its generator newly seeded with its seed, from the first on. So calls with one seed use the same numbers, and running n steps and then m steps does not give what running n + m steps gives; a run of n + m steps is the run of n steps continued with the numbers that follow.", "quantifier": "all sequences of calls (numbers of steps, generator types, seeds, times), all models, all engines, all earlier uses of the generators", "why_tests_cant": "tests call run once, or twice without comparing random numbers; the claim is about every sequence of calls and every seed", "anchors": ["python/src/KMCLib/CoreComponents/KMCLatticeModel.py: run, _backend", "c++/src/random.cpp: setRngType, seedRandom, randomDouble01", "c++/src/simulationtimer.cpp"]}
{"id": "C81", "title": "With independent uniform random numbers a simulation has the law of the continuous time Markov chain of its script", "statement": "Take a model made from a script, in any configuration its run has come to, and a finite sequence of events (process, site) with waiting times. The random numbers with which the run goes on with exactly these events, each after a waiting time longer than the one given, are those in a box of the unit cube. The volume of the box is the product over the events of (rate of the event / total rate) times exp(-(total rate) * waiting time), with the rates the script gives in the configuration before the event. So when the generator's numbers are independent and uniform, this product is the probability of that continuation. The probability does not depend on the time shown so far, nor on how the configuration was reached. The events of a configuration exhaust it: over all events the probabilities of a waiting time longer than w sum to exp(-(total rate) * w).", "quantifier": "all scripts of custom, rate-calculator and plain processes that are well posed, all reachable configurations, all event sequences of any length at sites of the lattice, all non-negative waiting times, all random numbers, any number of ranks", "why_tests_cant": "A test can compare frequencies with probabilities within a statistical error, on one system. The law is about the measure of the set of all random numbers, for all scripts and all histories.", "anchors": ["python/src/KMCLib/CoreComponents/KMCLatticeModel.py: KMCLatticeModel.run", "c++/src/simulationtimer.cpp: SimulationTimer::propagateTime", "c++/src/interactions.cpp: Interactions::pickProcess, updateProbabilityTable", "c++/src/process.cpp: Process::pickSite", "c++/src/latticemodel.cpp: LatticeModel::singleStep"]}
{"id": "C82", "title": "Processes that undo one another: every event can be undone, and detailed balance gives the equilibrium", "statement": "Two calls of KMCProcess with the same coordinates and basis point in which elements_before and elements_after are exchanged give processes that undo one another (likewise bucket processes with opposite updates). After an event of one of them at a site, the other can happen at that site, and leads back to exactly the types before. If every process of a script is undone by another one and no rate of a possible event is zero, then from any configuration a run has come to there are random numbers that lead it back to the initial configuration. If moreover weights of the configurations satisfy detailed balance with the rates, then they are kept by the Markov chain that the simulation follows: into each configuration as much flows as out of it, so the normalised weights are a stationary distribution.", "quantifier": "all well posed scripts of plain and bucket processes with constants or a rate calculator, all reachable configurations, all events, all closed finite sets of configurations and all weights on them", "why_tests_cant": "A test can check single moves and their reverse. Reversibility from every reachable configuration and stationarity are statements over all histories and over sums of all events, including periodic images, implicit wildcards and overlapping processes.", "anchors": ["python/src/KMCLib/CoreComponents/KMCProcess.py: KMCProcess", "python/src/KMCLib/CoreComponents/KMCBucketProcess.py: KMCBucketProcess", "python/src/KMCLib/CoreComponents/KMCLatticeModel.py: KMCLatticeModel.run", "c++/src/configuration.cpp: performBucketProcess", "c++/src/matcher.cpp: calculateMatching"]}
{"id": "C83", "title": "run(): which arguments are accepted, and what a refused call leaves behind", "statement": "run(control_parameters, trajectory_filename, trajectory_type, analysis, breakers) begins exactly when control_parameters is a KMCControlParameters, the file name is None or a string, the type is None or a string (one of 'lattice' and 'xyz' if a file name is given), and analysis and breakers are each None or a non-empty list or tuple of plugin objects. It then uses these settings, a trajectory of the type asked for ('lattice' by default) under the file name given, and the objects in the order given; the generator asked for is in the state the seed gives and no other generator is touched. Every other call raises an Error. A call refused because of an argument of a wrong type changes nothing: no backend is made and no generator is seeded.", "quantifier": "all values of the five arguments (numbers, strings, lists and tuples of anything, objects of any class), all states of the model and of the generators", "why_tests_cant": "A test tries some wrong values. Which values are accepted, and what is left unchanged by a refusal, is a statement about all values and all states.", "anchors": ["python/src/KMCLib/CoreComponents/KMCLatticeModel.py: KMCLatticeModel.run", "python/src/KMCLib/Utilities/CheckUtilities.py: checkSequenceOf"]}
{"id": "C84", "title": "The printed table of mean square displacements", "statement": "printResults of OnTheFlyMSD (on the master process, with at least two history steps) writes a title and one line for each bin before the safe cutoff, in order. Reading a line gives sixteen numbers: the centre of the bin, for each of the seven directions named in the title the mean squared displacement over the comparisons that fall into the bin, the seven standard deviations, and the mean number of steps of these comparisons; the numbers are the ones that were computed, to six significant digits. The safe cutoff is the first bin with more than 1 % of the largest number of comparisons over the longest lag, or the end. Other processes print nothing.", "quantifier": "all histories of configurations, numbers of bins and history steps, times, cell vectors and units", "why_tests_cant": "The columns, the order of the lines, the cutoff and the rounding must be right for every history; a test compares the text of one table.", "anchors": ["python/src/KMCLib/Analysis/OnTheFlyMSD.py: OnTheFlyMSD.printResults, OnTheFlyMSD.safeCutoff"]}
{"id": "C85", "title": "The xyz trajectory file of a run follows the atoms through a history of the Markov chain", "statement": "Take a script as in C79 and run it with an xyz trajectory and a dump interval d. When the run is over, the file has, behind its header, the frames of the steps 0, d, 2d, ... The frame of step k tells, to eleven digits, the time at step k and the types and positions that atomIDTypes() and atomIDCoordinates() report in the state to which the first k pairs of random numbers lead; these states are those of one history of the Markov chain of the processes, beginning with the particles of the script. There are as many atoms as sites in every frame, their types are names of the simulation, and in the first frame they are at the sites of the lattice. This holds however the run ends; without breakers the run makes all its steps unless the chain comes to a state in which no event has a rate.", "quantifier": "all scripts with proper arguments, all run lengths, dump intervals, analysis objects and breakers, all numbers of MPI ranks, all sequences of random numbers, all buffer limits", "why_tests_cant": "the tests write a few frames of one small system; the frames must be right for every script and random sequence, wherever the buffer happens to be flushed", "anchors": ["python/src/KMCLib/CoreComponents/KMCLatticeModel.py: run", "python/src/KMCLib/Utilities/Trajectory/XYZTrajectory.py: _storeData, flush", "python/src/KMCLib/Utilities/Trajectory/Trajectory.py: append", "python/src/KMCLib/CoreComponents/KMCConfiguration.py: atomIDTypes, atomIDCoordinates", "c++/src/configuration.cpp: performBucketProcess"]}
{"id": "C86", "title": "The numbers of particles keep books on the processes: stoichiometry, conservation laws, and when a run must end", "statement": "Take a script with plain and bucket processes and proper arguments, and run it. After any run the number of particles of each type, over all sites, is the number before plus, for every process, the number of its events in the run times what one event of it adds (for a plain process without wildcards: how often the type occurs in elements_after less how often it occurs in elements_before). Hence, if particles are weighted such that no process changes the weighted number, every state the run comes to has the weighted number of the initial types; if no process raises it, it is never above its initial value; and if every process lowers a non-negatively weighted number, no run makes more steps than that number at its start.", "quantifier": "all scripts with proper arguments, all types, all weights, all run lengths, all numbers of MPI ranks, all sequences of random numbers", "why_tests_cant": "a test counts particles in one run of one system; no event at any site, over a periodic boundary or with wildcards, may lose or duplicate a particle, in any history", "anchors": ["python/src/KMCLib/CoreComponents/KMCLatticeModel.py: run", "c++/src/latticemodel.cpp: singleStep", "c++/src/configuration.cpp: performBucketProcess", "python/src/KMCLib/CoreComponents/KMCProcess.py: __init__", "python/src/KMCLib/CoreComponents/KMCBucketProcess.py: __init__", "python/src/KMCLib/CoreComponents/KMCConfiguration.py: types"]}
{"id": "C87", "title": "The script for ATK represents the atoms of the configuration", "statement": "config._atkScript(types_map) returns a script that a reader of Python takes for: comments; the three vectors of the cell, which are to eight decimals those of the unit cell times the repetitions; the list elements with the names that types_map gives to the atoms whose types it has, in the order of the atoms; the list coordinates with, to nine digits, the positions of these atoms divided by the repetitions; and the call of BulkConfiguration with these. This holds however many atoms there are and wherever the lines are broken.", "quantifier": "all lattices, all types and positions of atoms, all maps whose values are names", "why_tests_cant": "the unit tests compare two scripts; the loop that breaks the lines and closes the lists must be right for every number of atoms, every map and every number", "anchors": ["python/src/KMCLib/CoreComponents/KMCConfiguration.py: _atkScript, atomIDTypes, atomIDCoordinates"]}
{"id": "C88", "title": "An update that adds the wildcard cancels its row, and only its row", "statement": "When an update of a KMCBucketProcess lists a positive number of the wildcard '*' for a position, performing the process leaves the particles and the listed types of the site at this position unchanged, whatever else the update lists for it; every row whose update does not mention '*' changes the number of every type at its site by exactly the listed amount in the same event.", "quantifier": "all bucket processes, all updates, all configurations and sites at which the process is performed, with and without implicit wildcards", "why_tests_cant": "the constructor does not check updates, so every combination of a wildcard with other changes and other rows is accepted and must have this effect", "anchors": ["c++/src/configuration.cpp: performBucketProcess", "c++/src/configuration.cpp: updateInfo", "python/src/KMCLib/CoreComponents/KMCBucketProcess.py: _update"]}
{"id": "C89", "title": "No cell of a periodic lattice is special: translated configurations have translated simulations", "statement": "Take two scripts with the same lattice, processes and rates that do not depend on the place, and initial types that differ by a translation by whole cells along periodic axes. The two simulations have the same total rate; any sequence of events with waiting times has in the first the probability that the translated sequence has in the second; and after such events the configurations differ by the translation again. Numbering of cells and the place where the boundary is crossed make no difference.", "quantifier": "all lattices, processes, configurations reached by runs, translations along periodic axes, sequences of events and waiting times", "why_tests_cant": "a seam at the periodic boundary would show only for particular lattices, processes and states; the claim compares the probabilities of all histories of two simulations", "anchors": ["c++/src/latticemap.cpp: neighbourIndices, wrap", "c++/src/matcher.cpp: calculateMatching", "c++/src/latticemodel.cpp: singleStep", "python/src/KMCLib/CoreComponents/KMCLatticeModel.py: run"]}
{"id": "C90", "title": "The order in which the processes are given makes no difference", "statement": "Take two scripts with the same lattice, types and processes, where the processes are given to KMCInteractions in different orders. While types() shows the same in both simulations they have the same total rate, and any sequence of events with waiting times, each event named by its process and site, has the same probability in both; afterwards types() shows the same again.", "quantifier": "all scripts, orders of the processes, states reached by runs, sequences of events and waiting times, numbers of MPI processes", "why_tests_cant": "a dependence on the order (for instance of the last process in the table, or of a process that follows one without available sites) shows only in the probabilities of particular states; the claim compares all histories", "anchors": ["c++/src/interactions.cpp: updateProbabilityTable, pickProcessIndex", "python/src/KMCLib/CoreComponents/KMCInteractions.py: KMCInteractions", "c++/src/latticemodel.cpp: singleStep"]}
{"id": "C91", "title": "The unit of time makes no difference", "statement": "Take two scripts with the same lattice, types and processes, where all rates of the second are those of the first multiplied by the same positive number c (a rational number). The total rate is multiplied by c, any sequence of events with waiting times has in the first the probability that it has in the second with the waiting times divided by c, and it leads to the same states.", "quantifier": "all scripts, factors, states reached by runs, sequences of events and waiting times", "why_tests_cant": "the claim compares the probabilities of all histories of two simulations", "anchors": ["c++/src/simulationtimer.cpp: propagateTime", "c++/src/interactions.cpp: updateProbabilityTable, pickProcessIndex, totalRate", "python/src/KMCLib/CoreComponents/KMCLatticeModel.py: run"]}
{"id": "C92", "title": "A process with rate zero is as good as no process", "statement": "Setting the rate constant of a process to zero (or letting the rate calculator return zero for it) switches it off: no step ever performs it, and the simulation has the same total rates and the same probabilities of all histories as the one of the script without the process.", "quantifier": "all scripts, processes added with rate zero, states reached by runs, sequences of events and waiting times, random numbers", "why_tests_cant": "a process without rate could be picked at the boundary of an interval of the table for particular random numbers only; and all histories are compared", "anchors": ["c++/src/interactions.cpp: updateProbabilityTable, pickProcessIndex", "c++/src/process.cpp: totalRate, pickSite", "python/src/KMCLib/CoreComponents/KMCProcess.py: KMCProcess"]}
{"id": "C93", "title": "Only the lattice, the particles, the processes and the rates matter", "statement": "Two scripts that describe the same repetitions, periodicity, basis points, particles, processes and rates give simulations with the same law: cell vectors, the format in which types are given, the order of possible_types, the caching of rates, the way a rate calculator computes the same rates, and the number of MPI processes may differ. Both start from the same numbers of particles, have the same total rates, and the same probabilities of all histories.", "quantifier": "all pairs of scripts that describe the same chain, states reached by runs, sequences of events and waiting times, numbers of MPI processes", "why_tests_cant": "all representations of the same input are compared, in the probabilities of all histories", "anchors": ["python/src/KMCLib/CoreComponents/KMCLatticeModel.py: KMCLatticeModel", "python/src/KMCLib/CoreComponents/KMCUnitCell.py: KMCUnitCell", "python/src/KMCLib/CoreComponents/KMCConfiguration.py: KMCConfiguration", "c++/src/matcher.cpp: calculateMatching, updateRates"]}
