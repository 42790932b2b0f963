{"id": "C01", "title": "The default flow chart is exactly the documented rule table", "statement": "For every pair of stellar states, binary state and event, the step that evolution would run next is the one given by the priority rule table (terminal rules before disrupted/merged/single rules before core collapse before common envelope before Roche-lobe overflow before detached rules), and no step is selected when no rule applies; every selected step is one of the documented step names.", "quantifier": "all total states, including unknown state/event names", "why_tests_cant": "The table is built by about thirty overlapping loops that overwrite each other; a test samples a few of tens of thousands of keys and none of the unknown names.", "anchors": ["posydon/binary_evol/flow_chart.py:POSYDON_FLOW_CHART", "posydon/binary_evol/binarystar.py:BinaryStar.get_next_step_name"]}
{"id": "C02", "title": "Relabelling the stars does not change which step runs", "statement": "If the labels of the two stars are exchanged (and RLO1/RLO2, oRLO1/oRLO2, oCE1/oCE2, oDoubleCE1/2, CC1/CC2, oMerging1/2, Match1/2 exchanged accordingly) the chart selects the same step, except exactly for contact binaries entering a common envelope in which exactly one component is an ordinary (non-compact, non-massless) star: there step_CE is selected when the ordinary star is the second component and no step exists when it is the first.", "quantifier": "all total states", "why_tests_cant": "Symmetry over the whole key space is a universally quantified statement; spot tests check a handful of mirrored pairs.", "anchors": ["posydon/binary_evol/flow_chart.py:POSYDON_FLOW_CHART"]}
{"id": "C03", "title": "Terminal situations always end the evolution", "statement": "Whenever the event is maxtime, MaxTime_exceeded or CO_contact, or the binary is in initial RLOF, or both components are massless remnants or one is and the other is a compact object, or two compact objects are disrupted, the next step is step_end, whatever the rest of the total state.", "quantifier": "all total states", "why_tests_cant": "Depends on the order of overwriting loops for every remaining component of the key.", "anchors": ["posydon/binary_evol/flow_chart.py:POSYDON_FLOW_CHART"]}
{"id": "C04", "title": "Customising the flow chart overrides exactly the requested existing entries", "statement": "flow_chart(FLOW_CHART, CHANGE_FLOW_CHART) returns a chart whose keys are those of the base chart, whose value at every changed existing key is the requested step and whose other values are untouched; keys not in the base chart are ignored; the module-level default chart is never modified while a chart passed in by the caller is modified in place.", "quantifier": "all base charts, change dictionaries and keys; any sequence of calls", "why_tests_cant": "Aliasing and absence of side effects over call sequences are not observable from single calls.", "anchors": ["posydon/binary_evol/flow_chart.py:flow_chart"]}
{"id": "C05", "title": "The eccentric-ZAMS flow chart changes only ZAMS and two-star RLO entries", "statement": "initial_eccentricity_flow_chart sends every detached ZAMS entry to step_detached, sends exactly the evolvable star pairs in RLO1/oRLO1 and RLO2/oRLO2 to the HMS-HMS RLO grid and leaves every other entry of the (customised) chart as it was.", "quantifier": "all base charts, change dictionaries and keys", "why_tests_cant": "Same as C04: universally quantified over charts.", "anchors": ["posydon/binary_evol/flow_chart.py:initial_eccentricity_flow_chart"]}
{"id": "C06", "title": "Evolution runs at most max_n_steps_per_binary + 1 steps and always disarms the alarm", "statement": "BinaryStar.evolve with a step limit N (N >= 0) terminates, calls at most N+1 step functions for any step implementations and at most N when it returns normally; it returns normally only after leaving the loop in a terminal event/state; whenever a step runs the alarm is armed, and the alarm is off whenever evolve returns or raises (if it was off before); all post_evolve functions run exactly once if evolve returns normally, and none runs when a step, the step limit or an earlier phase raises.", "quantifier": "all binaries, all step functions including raising ones, all hook functions, all limits", "why_tests_cant": "Termination and cleanup for arbitrary user-supplied steps cannot be tested exhaustively.", "anchors": ["posydon/binary_evol/binarystar.py:BinaryStar.evolve", "posydon/binary_evol/binarystar.py:BinaryStar.run_step"]}
{"id": "C07", "title": "All history columns stay aligned", "statement": "After any interleaving of run_step, evolve, append_state, restore, switch_star, flip_stars and set_binary_to_failed on a freshly built binary (raising or not), every binary and star history list has the same length; append_state adds exactly one row equal to the current values, and a redirection adds no row unless history_verbose.", "quantifier": "all operation sequences, all step/hook functions that keep histories aligned (in particular all that only assign current values)", "why_tests_cant": "Unbounded operation histories.", "anchors": ["posydon/binary_evol/binarystar.py:BinaryStar.append_state", "posydon/binary_evol/binarystar.py:BinaryStar.restore", "posydon/binary_evol/singlestar.py:SingleStar.append_state", "posydon/binary_evol/singlestar.py:SingleStar.restore"]}
{"id": "C08", "title": "restore(i) puts the binary back to its i-th recorded state", "statement": "For 0 <= i < number of recorded states, restore(i) makes the current properties of binary and stars the i-th recorded ones and keeps exactly the records 0..i; restore(i) after restore(j), i <= j, equals restore(i). Negative indices -n <= i < -1 count from the end in the same way; restore(-1) takes the last values but empties every history; an index out of range raises IndexError and changes nothing. All this requires the columns declared by hooks to exist: otherwise restore raises after having cut only the binary's own histories.", "quantifier": "all binaries, histories and indices", "why_tests_cant": "Quantified over history lengths and indices; the negative index wraps silently.", "anchors": ["posydon/binary_evol/binarystar.py:BinaryStar.restore", "posydon/binary_evol/singlestar.py:SingleStar.restore", "posydon/binary_evol/binarystar.py:BinaryStar.reset"]}
{"id": "C09", "title": "Hooks are called in a fixed nesting order around every step", "statement": "For any list of hooks and any steps, the call log of an evolution is pre_evolve of all hooks, then for each step pre_step of all hooks, the step chosen by the flow chart, post_step of all hooks (exactly when the step did not leave an unrecorded redirection), and post_evolve of all hooks, each group in registration order with the extra function last; the log stops at the first call that raises.", "quantifier": "all hook lists, all runs", "why_tests_cant": "Order over arbitrary hook lists and run lengths.", "anchors": ["posydon/binary_evol/simulationproperties.py:SimulationProperties.pre_evolve", "posydon/binary_evol/simulationproperties.py:SimulationProperties.post_step", "posydon/binary_evol/binarystar.py:BinaryStar.run_step"]}
{"id": "C10", "title": "Timing and step-name hook columns match the history rows", "statement": "After an evolution with the timing or step-name hook that returns normally, the hook column has exactly one entry per history row, whichever steps were redirections and however often the binary is evolved again or restored in between (steps may append rows of their own, redirecting steps must not; a binary that ends with END or FAILED needs no such condition); with steps that leave histories alone the step-name column is the old one followed by the names of the recorded steps. Exception: a column longer than the history (restored without the hook) is cut to one entry too few.", "quantifier": "all evolutions, including repeated evolutions after a restore", "why_tests_cant": "Depends on arbitrary sequences of steps and re-evolutions.", "anchors": ["posydon/binary_evol/simulationproperties.py:TimingHooks", "posydon/binary_evol/simulationproperties.py:StepNamesHooks"]}
{"id": "C11", "title": "Existence bookkeeping identifies massless remnants", "statement": "check_who_exists sets the existence flags and the non_existent_companion code as documented for every combination of missing/massless components; switch_star exchanges the stars and is an involution; after switch_star the codes 1 and 2 are exchanged.", "quantifier": "all pairs of components", "why_tests_cant": "Universally quantified over stellar states.", "anchors": ["posydon/binary_evol/binarystar.py:BinaryStar.check_who_exists", "posydon/binary_evol/binarystar.py:BinaryStar.switch_star"]}
{"id": "C12", "title": "Exchanging the components of a binary is an involution", "statement": "flip_stars exchanges the stars and all per-star quantities with their histories and leaves the others unchanged; applying it twice restores the binary. The total state becomes the mirrored one exactly when the event is not oDoubleCE1/2, oMerging1/2 or Match1/2, and then selects the same next step unless the flow chart itself distinguishes the labels (contact common envelope with one ordinary star). For oDoubleCE1 in RLO1 the flipped binary has no next step.", "quantifier": "all binaries", "why_tests_cant": "Quantified over all states/events; a test covers a few.", "anchors": ["posydon/utils/common_functions.py:flip_stars"]}
{"id": "C13", "title": "Cumulative mass-transfer case obeys its compression rules", "statement": "cumulative_mass_transfer_numeric of a non-empty sequence is uniquely determined: the entries other than no-RLO and undetermined, in order, with consecutive repetitions merged, preceded by one 'undetermined' iff some entry was undetermined, and [no RLO] when nothing else is left; the empty sequence gives [undetermined], a list of names gives what the codes of the names give, an unknown name raises KeyError.  The text form lists the cases with their donor number and is injective on summaries; only nameless codes are skipped, each with a warning.  With shift_cases every case is raised to the latest case of the same donor seen so far, so the flag is monotone per donor and an already ordered sequence is unchanged; but an undetermined entry swallows all later cases of star 1 and a no-RLO entry repeats star 1's latest case.", "quantifier": "all finite sequences of case codes or names", "why_tests_cant": "Sequences of unbounded length.", "anchors": ["posydon/utils/common_functions.py:cumulative_mass_transfer_numeric", "posydon/utils/common_functions.py:cumulative_mass_transfer_string", "posydon/utils/common_functions.py:cumulative_mass_transfer_flag"]}
{"id": "C14", "title": "Mass-transfer case inference is a function of state and rate thresholds", "statement": "infer_mass_transfer_case returns no-RLO exactly when the overflow or rate is undefined (None) or both are at most their threshold (only the overflow counts for the non-dominating star); otherwise the case documented for the donor's state, undetermined exactly for the states outside the classified ones, TypeError exactly when the state is missing.  It never returns case BC, and NaN overflow is treated as overflow.", "quantifier": "all overflow values, rates and state names (including undefined values)", "why_tests_cant": "Continuous inputs with NaN/None.", "anchors": ["posydon/utils/common_functions.py:infer_mass_transfer_case"]}
{"id": "C15", "title": "Binary state and event inference is consistent with the Roche-lobe flags", "statement": "get_binary_state_and_event_and_mt_case returns contact only if both stars fill their lobes, RLOi only if star i does (or transfers mass and dominates), detached only if none does; events are only core collapse, common-envelope or double common-envelope onset, each with its donor; exchanging the stars exchanges the labels unless the overflows tie or both cores are exhausted.  At a history index the row's values are used, except that the companion's current state decides between single and double common envelope.", "quantifier": "all binaries and history indices", "why_tests_cant": "Quantified over all combinations of numeric/undefined inputs.", "anchors": ["posydon/utils/common_functions.py:get_binary_state_and_event_and_mt_case"]}
{"id": "C16", "title": "Compact-object classification partitions the mass range", "statement": "For a compact object the inferred state is massless, WD, NS or BH according to consecutive mass intervals that cover all masses without overlap (with any abundance seen, WD extends up to about 1.46 Msun, otherwise up to about 1.1); inferred states of normal stars are the surface word joined with the burning word, each determined by its thresholds; exactly four inferable names (stripped_He_Core_H_burning, stripped_He_Shell_H_burning, accreted_He_Core_He_depleted, accreted_He_Core_C_depleted) are unknown to the evolution flow, all four can be inferred, and a star in such a state has no next step; the helium-depletion index is the first row in that state.", "quantifier": "all masses, abundances and luminosities", "why_tests_cant": "Continuous inputs; boundary values.", "anchors": ["posydon/utils/common_functions.py:infer_star_state", "posydon/utils/common_functions.py:check_state_of_star"]}
{"id": "C17", "title": "Kepler conversions agree up to a fixed factor", "statement": "For positive periods, separations and masses orbital_separation_from_period satisfies 4 pi^2 a^3 = G (m1+m2) P^2 in cgs units with POSYDON's constants, orbital_period_from_separation satisfies (P/365.25)^2 (m1+m2) = (a/214.95)^3.  Both are positive, strictly increasing in their first argument, monotone in the total mass and symmetric in the masses.  One after the other multiplies a period by a fixed number k with 1.000147 < k < 1.000149 and a separation by l with l^3 = k^2, whatever the masses; so they are never inverse to each other.", "quantifier": "all positive periods, separations and masses (real arithmetic)", "why_tests_cant": "Continuous domain.", "anchors": ["posydon/utils/common_functions.py:orbital_separation_from_period", "posydon/utils/common_functions.py:orbital_period_from_separation"]}
{"id": "C18", "title": "Roche lobe radii", "statement": "roche_lobe_radius broadcasts numbers and arrays: it fails (ValueError) exactly if two sizes other than 1 differ, else each place holds Eggleton's value a 0.49 q^(2/3) / (0.6 q^(2/3) + ln(1 + q^(1/3))) of the arguments' values there, NaN if a mass is not positive, the separation is negative or one of them is NaN; an empty array counts as one NaN.  For positive numbers the radius is between 0 and 49/60 of the separation, proportional to it, unchanged if both masses are scaled, strictly increasing with m1/m2, and the lobes of the two stars do not overlap.  check_for_RLO answers no exactly if everything is defined and both radii are below their lobes plus the tolerance; any NaN counts as overflow; it is symmetric in the stars.  Exception to purity: invalid values in arrays given by the caller are overwritten by NaN.", "quantifier": "all numbers and one-dimensional arrays, NaN included (real arithmetic)", "why_tests_cant": "Continuous domain.", "anchors": ["posydon/utils/common_functions.py:roche_lobe_radius", "posydon/utils/common_functions.py:check_for_RLO"]}
{"id": "C19", "title": "Rejection, inverse and histogram samplers return exactly the requested number of in-range samples", "statement": "Whenever it returns, rejection_sampler gives exactly `size` values: the proposed points (pairs of raw random numbers, none used twice) whose height does not exceed the density, in order, all inside the interval, with the top equal to the largest probed (or tabulated) density.  histogram_sampler gives exactly `size` values (a 0-dimensional array for size 1); the j-th lies in the bin that the cumulative weights assign to the j-th raw number and is drawn with a raw number of its own.  inverse_sampler gives, for each raw number u, the point where the area under the polygon reaches u times the total (any point of the segment where the density is constant).  Bad arguments raise; termination of rejection is not guaranteed.", "quantifier": "all densities, tables, sizes and random streams", "why_tests_cant": "Quantified over random streams.", "anchors": ["posydon/utils/common_functions.py:rejection_sampler", "posydon/utils/common_functions.py:histogram_sampler", "posydon/utils/common_functions.py:inverse_sampler"]}
{"id": "C20", "title": "Population parts are a partition of the population over processes", "statement": "With n > 0 processes the indices handed to ranks 0..n-1 are consecutive pieces of the population, in order, whose sizes differ by at most one, so every binary number is evolved by exactly one process; n <= 0 raises ValueError and a rank >= n raises IndexError.  A serial run handles the whole population, also when evolve() is repeated; a repeated evolve() in a parallel run splits the stored part again, so binaries are lost.", "quantifier": "all populations, process counts and ranks", "why_tests_cant": "Unbounded n and p.", "anchors": ["posydon/popsyn/binarypopulation.py:BinaryPopulation.evolve"]}
{"id": "C21", "title": "Every evolved binary is saved exactly once", "statement": "With RAM optimisation, for any dump rate or memory schedule, batch files plus leftover are a cut of the evolved binaries (failed ones included) into consecutive groups under distinct names, each file holding exactly the tables and totals of its group; the final combined file holds the tables of every binary exactly once, in order, the batch files are gone, and no other file changes.  Without RAM optimisation the single file (breakdown_to_df) or the manager holds everything.  A process that gets no binaries raises IndexError.  Conditions: table conversions succeed and HDF accepts the appended rows.", "quantifier": "all batch sizes, memory schedules, population sizes, failure patterns and warnings", "why_tests_cant": "Unbounded executions, failure schedules.", "anchors": ["posydon/popsyn/binarypopulation.py:BinaryPopulation._safe_evolve", "posydon/popsyn/binarypopulation.py:PopulationManager.save"]}
{"id": "C22", "title": "A failing binary never stops the population and is marked failed", "statement": "An exception while evolving one binary marks that binary (set_binary_to_failed: state ERR, event FAILED, one more history row), all later binaries are still drawn and evolved and end up the same as if it had not failed; after every binary the alarm is off, nothing is recorded or being caught, filters and the global warning registry are unchanged, and nothing is printed unless warnings_verbose.", "quantifier": "all failure patterns, exceptions, warnings and alarms", "why_tests_cant": "Fault schedules.", "anchors": ["posydon/popsyn/binarypopulation.py:BinaryPopulation._safe_evolve", "posydon/utils/common_functions.py:set_binary_to_failed"]}
{"id": "C23", "title": "Breaking down a binary into tables loses nothing", "statement": "breakdown_to_df of a stored binary moves exactly its two tables to the stored tables and removes it; if the history conversion fails nothing changes; if the one-line conversion fails the history is stored and the binary kept.  Tables are reported for all binaries held, or, if none is held, all stored tables.  Hence one binary that cannot be converted hides all stored tables, and the next save raises, which ends the population run.", "quantifier": "all managers, binaries and failure patterns of the table conversions", "why_tests_cant": "Fault schedules.", "anchors": ["posydon/popsyn/binarypopulation.py:PopulationManager.breakdown_to_df", "posydon/popsyn/binarypopulation.py:PopulationManager.to_df", "posydon/popsyn/binarypopulation.py:PopulationManager.save"]}
{"id": "C24", "title": "Combining batch files preserves all rows and total mass", "statement": "If all batch files hold both tables and their rows can be appended, combine_saved_files writes all rows in order, totals equal to the initial masses (single stars count once) and the number of systems, then deletes exactly the batch files.  With no file, or an incomplete first file, it raises and changes nothing.  In no case does it touch files that are neither listed nor the target.  A later file without history, or whose rows do not fit, is left out (or counted without its one-line rows) and deleted nevertheless.", "quantifier": "all lists of batch files, including incomplete ones, and all append rejections", "why_tests_cant": "Crash/corruption points.", "anchors": ["posydon/popsyn/binarypopulation.py:BinaryPopulation.combine_saved_files"]}
{"id": "C25", "title": "Binary container indices stay aligned with binaries", "statement": "After any sequence of append(binary) and remove(binary) the manager holds exactly the binaries appended and not removed (first occurrence removed), remove raises ValueError exactly for absent binaries and then changes nothing, and the stored indices are a permutation of the binaries' indices; position by position they agree when indices are distinct.  With repeated indices positions may disagree, and append(list) stores a nested list after which remove raises half-way.", "quantifier": "all operation sequences", "why_tests_cant": "Unbounded histories; nested list appends.", "anchors": ["posydon/popsyn/binarypopulation.py:PopulationManager.append", "posydon/popsyn/binarypopulation.py:PopulationManager.remove"]}
{"id": "C26", "title": "Drawing binary number n gives the n-th binary", "statement": "For n >= 1, if get_binary_by_iter(n) returns, the sampler takes a fixed number of random numbers per binary, orbital_scheme is given and formation times take no random numbers, then it returns the n-th binary drawn from the initial seed, with index n instead of n-1, and leaves the generator unchanged; get_binary_by_iter(0) is the first binary.  With the independent sampler get_binary_by_iter(1) always raises ValueError.  It is a different binary for random formation times, for rejection sampling, and when orbital_scheme is left to its default.", "quantifier": "all n, all random streams and steady samplers", "why_tests_cant": "Quantified over random streams.", "anchors": ["posydon/popsyn/binarypopulation.py:BinaryGenerator.get_binary_by_iter", "posydon/popsyn/binarypopulation.py:BinaryGenerator.draw_initial_binary"]}
{"id": "C27", "title": "Initial conditions read from file are taken cyclically and stay row-aligned", "statement": "Reading n >= 1 binaries starting at index k from a file with m >= 1 rows yields, for i < n, row (k+i) mod m of every column; kicks come from the same row; a binary drawn with index i is row i mod m in all quantities.  A file without rows is never finished.  Without explicit index every binary of a sequence is row 0, and for number_of_binaries=0 all rows but no kicks are returned.", "quantifier": "all tables with m >= 1 rows, all k, n, column aliases and generated columns", "why_tests_cant": "Unbounded sizes; the code doubles lists.", "anchors": ["posydon/popsyn/sample_from_file.py:get_samples_from_file", "posydon/popsyn/sample_from_file.py:get_kick_samples_from_file"]}
{"id": "C28", "title": "Column aliases are resolved by priority, case-insensitively", "statement": "infer_key returns the first available column matching, ignoring case, the highest-priority allowed name, and the empty string when none matches.", "quantifier": "all lists of names", "why_tests_cant": "Universally quantified over lists.", "anchors": ["posydon/popsyn/sample_from_file.py:infer_key"]}
{"id": "C29", "title": "Generated secondary masses respect their limits", "statement": "For the flat mass-ratio scheme every secondary mass lies between secondary_mass_min and min(primary, secondary_mass_max) in exact arithmetic, and within relative (1±eps)^2 of the limits for a rounding of accuracy eps, never above the primary; it succeeds exactly when all primaries exceed secondary_mass_min, otherwise ValueError.  A star is single when its random number exceeds its binary fraction; then orbit, eccentricity and secondary mass become undefined together and the primary mass stays.  With 'q=1' the primary mass of a single star becomes undefined too.", "quantifier": "all mass arrays, limits, random numbers, roundings and binary-fraction draws", "why_tests_cant": "Random streams; aliasing between arrays.", "anchors": ["posydon/popsyn/independent_sample.py:generate_secondary_masses", "posydon/popsyn/independent_sample.py:generate_independent_samples"]}
{"id": "C30", "title": "History access by index, slice, list and mask returns exactly the selected rows", "statement": "pop.history[key] and pop.oneline[key] return, for an integer, list or array of labels or a slice of labels (start and stop replaced by 0 and the number of systems), exactly the rows with these labels in file order, for any chunk size, and raise ValueError if there is none; columns are returned for all rows, unknown ones raise.  A mask of the one-line table selects exactly its rows.  A mask of the history table selects exactly its rows iff the table fits in one chunk or the chunk size is 1; otherwise it raises, or, if the chunk size divides the number of rows, applies the mask shifted by chunk number.", "quantifier": "all tables, keys and chunk sizes >= 1", "why_tests_cant": "Chunking over unbounded tables.", "anchors": ["posydon/popsyn/synthetic_population.py:History.__getitem__"]}
{"id": "C31", "title": "Exporting a selection renumbers consistently", "statement": "export_selection of distinct binaries present in all tables appends to the target the history, one-line, length and formation-channel rows of exactly the selected binaries, the k-th one renumbered to base+k in all tables, where base is 0 or one more than the largest index of the target.  Simulated masses of the source are added to those of the target per metallicity.  Wrong names, append with overwrite, or an existing file raise and change nothing.  Consequences: exporting two parts of a population into one file doubles its simulated mass; number_of_systems is the size of the selection in every metallicity, also in the source object; a missing binary leaves a partial file.", "quantifier": "all populations, duplicate-free selections, chunk sizes, targets", "why_tests_cant": "Unbounded call sequences.", "anchors": ["posydon/popsyn/synthetic_population.py:Population.export_selection"]}
{"id": "C32", "title": "Formation channels describe the whole history of their binary", "statement": "calculate_formation_channels assigns to every binary, whatever the chunk sizes, the underscore-joined sequence of the events of its own complete history (None left out; the kind of mass transfer of the HMS-HMS grid after the first event; in the non-debug channel redirections and compact-object contact removed and contact phases marked), cut to 100 characters, provided the binaries of the file lie in blocks in the same order in the history and one-line tables (in particular if sorted by index).  Otherwise the result depends on the chunk size; two binaries that differ only after 100 characters share a channel; an unknown interpolation class raises KeyError with the earlier chunks written.", "quantifier": "all files, chunk sizes, events of the flow chart", "why_tests_cant": "Chunk boundaries over arbitrary row orders.", "anchors": ["posydon/popsyn/synthetic_population.py:Population.calculate_formation_channels", "posydon/popsyn/synthetic_population.py:Population._write_formation_channels"]}
{"id": "C33", "title": "Transients get the weight of their own system", "statement": "calculate_model_weights of a transient population attaches to each transient row the weight computed from the one-line row with the same index and the simulated mass of its metallicity (0 if that is not a number or the metallicity has no simulated mass), provided the one-line table is sorted by index.  With an unsorted one-line table systems get each other's weights.", "quantifier": "all transient tables, sorted one-line tables, weight functions, chunk sizes", "why_tests_cant": "Row order is data dependent.", "anchors": ["posydon/popsyn/synthetic_population.py:TransientPopulation.calculate_model_weights"]}
{"id": "C34", "title": "Cosmic weights: which transients and which model", "statement": "calculate_cosmic_weights writes rows for exactly the first c*ceil(n/c) transients (n systems, chunk size c), each with its own index, its own model weight and its own metallicity's row (zeros if the metallicity is no bin centre); so all transients are covered iff there are at most c*ceil(n/c) of them.  The model used is the default overwritten by the parameters of all calls so far, the latest winning: a call without a model after a call with one uses the earlier one.", "quantifier": "all transient tables, chunk sizes and call sequences", "why_tests_cant": "Global state across calls.", "anchors": ["posydon/popsyn/synthetic_population.py:TransientPopulation.calculate_cosmic_weights", "posydon/popsyn/rate_calculation.py:DEFAULT_SFH_MODEL"]}
{"id": "C35", "title": "Intrinsic rate densities are additive", "statement": "With increasing redshift edges every event redshift in (first edge, last edge] lies in exactly one bin and any other (also NaN) in none; the rates times shell volumes add up to the weights of the events in the range (NaN weights as 0), and in every bin the total is the sum over the channels.  Events at redshift 0 are in no bin.", "quantifier": "all event tables, edges and nonzero volumes (exact arithmetic)", "why_tests_cant": "Sums over arbitrary tables.", "anchors": ["posydon/popsyn/synthetic_population.py:Rates.calculate_intrinsic_rate_density"]}
{"id": "C36", "title": "Metallicity and redshift bins cover the range with ordered edges", "statement": "For two or more distinct positive metallicities the bin edges are one more than the metallicities, strictly increasing, and each metallicity lies strictly inside its bin, inner edges being geometric means of neighbours; a single metallicity gets (1e-9, 1), a bin of the given width around it, or the given range even if it does not contain it (a one-element list comes back from the file as a width).  With n = int(age/delta_t) the redshift edges are 0, the redshifts of 1..n steps back, and 100; they increase if the rest of the time lies below redshift 100.  There are n+1 centres at half steps lying in their bins if more than half a step is left before the oldest edge; otherwise they cannot be computed.", "quantifier": "all metallicity lists, time steps and decreasing redshift functions (exact arithmetic)", "why_tests_cant": "Continuous parameters.", "anchors": ["posydon/popsyn/synthetic_population.py:Rates.edges_metallicity_bins", "posydon/popsyn/rate_calculation.py:get_redshift_bin_centers", "posydon/popsyn/rate_calculation.py:get_redshift_bin_edges"]}
{"id": "C37", "title": "Star-formation fractions over metallicity bins add up to the requested range", "statement": "If Z_min does not exceed the highest edge and Z_max lies above the lowest, every bin gets exactly the share of the CDF between its edges that lies within [Z_min, Z_max] (the outer bins reaching to limits beyond them); the fractions are non-negative for a monotone CDF and add up to CDF(Z_max) - CDF(Z_min), the outer edges replacing absent limits; normalised they are divided by that sum and add up to one, or are all undefined if it is zero.  Z_max below all bins gives zeros, but with Z_min also given the lowest bin gets too much; Z_min above all bins raises IndexError; unsorted edges raise ValueError.", "quantifier": "all CDFs, bin edges and limits (exact arithmetic)", "why_tests_cant": "Continuous functions and arbitrary bin lists.", "anchors": ["posydon/popsyn/star_formation_history.py:SFHBase._distribute_cdf"]}
{"id": "C38", "title": "Model weights reproduce the requested population", "statement": "calculate_model_weights returns one weight per system.  With s and p the densities of the simulated and the requested population at the system, the weight w satisfies w * s * M_sim * mean_pop = p * mean_sim if s is not 0, and is 0 if s is 0 or one of them is NaN; weights are non-negative; with identical parameters a system has the weight 1/M_sim, or 0 where the density is 0 or NaN.  The density is, for binaries, binary fraction times mass function times mass-ratio density times period density, each normalised and of the configured shape, and for single stars (1 - binary fraction) times mass function.  The mean mass is the integral of m (1 - f + f (1 + mean q)) over the mass function if a flat mass ratio has given limits.  It fails with ValueError or KeyError exactly if a parameter is outside its range, a limit is missing, the range of mass ratios is empty, or one population has only binaries and the other only single stars.  Exceptions: without given ratio limits the mean mass leaves out small mass ratios of heavy primaries (too small with the default limits); a separation scheme's period density is divided by the separation; an unrecognised mass function is constant also outside its limits.", "quantifier": "all systems with positive primary mass and all parameter dictionaries with positive masses in order, a binary fraction in [0,1] and valid mass-function shapes (real arithmetic)", "why_tests_cant": "Continuous domain.", "anchors": ["posydon/popsyn/norm_pop.py:calculate_model_weights", "posydon/popsyn/norm_pop.py:get_pdf", "posydon/popsyn/norm_pop.py:get_mean_mass"]}
{"id": "C39", "title": "Sampling distributions are normalised densities", "statement": "Each constructor fails (ValueError) exactly outside its documented range; else its density is non-negative, 0 outside the limits, proportional to its law and integrates to one: Salpeter, Kroupa1993, Kroupa2001, Chabrier2003, FlatMassRatio, PowerLawMassRatio (also from 0 if the exponent exceeds -1), ThermalEccentricity, UniformEccentricity, LogNormalSeparation, and, as densities in log10 of the period, PowerLawPeriod and Sana12Period.  The inverse sampling of Salpeter, Kroupa1993, FlatMassRatio, LogUniform, ThermalEccentricity, UniformEccentricity and of Sana12Period up to 15 solar masses is the inverse of the distribution function: strictly increasing from the lower to the upper limit.  Exceptions: LogUniform.pdf integrates to ln 10 for all limits; ZeroEccentricity.pdf is a point mass, with integral 0; Salpeter and Kroupa1993 with slope 1 construct and cannot sample (division by zero); Sana12Period.pdf is NaN above 15 solar masses if p_max is below 1 day, and with limits of 10 and 100 days the function handed to rejection sampling is negative everywhere.", "quantifier": "all parameters accepted by the constructors; positive mass limits, breaks and widths, breaks in order (real arithmetic)", "why_tests_cant": "Integrals over continuous parameters.", "anchors": ["posydon/popsyn/distributions.py", "posydon/popsyn/IMFs.py"]}
{"id": "C40", "title": "Broken mass functions are continuous and positive", "statement": "Kroupa2001's mass function, for positive m_min and breaks in order, is positive and continuous at every positive mass, a power law with its own slope in each of the three ranges, and 1 at m_min if that is below the first break.  Chabrier2003's, for positive m_c, sigma and m_break, is positive and continuous, a power law from the break on, and below it mass times value is a normal curve of log10 mass around m_c.  The constructor does not check the order of Kroupa2001's breaks; with m2break < m1break the function can jump.", "quantifier": "all slopes, breaks and masses as stated (real arithmetic)", "why_tests_cant": "Continuous domain.", "anchors": ["posydon/popsyn/IMFs.py:Kroupa2001.imf", "posydon/popsyn/IMFs.py:Chabrier2003.imf"]}
{"id": "C41", "title": "One-line table columns get the declared data type", "statement": "In one-line tables the initial and final column of every binary quantity and of every quantity of either star gets the data type declared for the quantity, and scalar columns the type declared for them, except binary_index and the star quantities avg_c_in_c_core, total_moment_of_inertia, mass_conv_reg_fortides, thickness_conv_reg_fortides and radius_conv_reg_fortides, whose columns keep the inferred type.  History tables get the declared type for every column.  A user-added column whose name contains _i or _f may lose its type or get that of another quantity.", "quantifier": "all declared quantities and user-added columns", "why_tests_cant": "Quantified over column names.", "anchors": ["posydon/popsyn/io.py:clean_binary_oneline_df"]}
{"id": "C42", "title": "What is loaded from the ini file of simulation properties", "statement": "A successful reading gives, for every section with an import line, the imported class and all its other options as keyword arguments; a section without one is left out without an error; options of grid_paths are given under their own names; nothing else is given.  Of the hooks numbered in extra_hooks exactly those with an index below the number of lines are loaded, in order: hooks 1..k are all loaded if at least one of them has a further line (absolute_import or kwargs), otherwise the last one is lost; with gaps in the numbering later hooks can be lost.", "quantifier": "all ini files with distinct sections and options; all hook sections", "why_tests_cant": "Quantified over section contents.", "anchors": ["posydon/popsyn/io.py:simprop_kwargs_from_ini"]}
{"id": "C43", "title": "Warnings are counted for every occurrence and shown once by default", "statement": "Over any sequence of warnings outside a catching context, the registry count of a (category, file, line) is the number of occurrences that are neither ignored nor errors, default filtering passes on exactly the first counted occurrence, 'always' passes on all, in order, and only an error filter raises.  In a catching context nothing is issued or raised by the body; on leaving the recorded ones are issued in order, the record is empty, catching is off and the global registry is in use again, and an own registry leaves the global one untouched.  However: while catching with filtering first, the file and line looked at are one frame too low (with the default level always a line inside Pwarn), so warnings of one category are merged wherever they come from; without filtering first an own registry is bypassed on leaving; leaving an inner context ends the catching of the outer one.", "quantifier": "all sequences of warnings, filters, call stacks and registries", "why_tests_cant": "Unbounded histories, nesting.", "anchors": ["posydon/utils/posydonwarning.py:_apply_POSYDON_filter", "posydon/utils/posydonwarning.py:_Caught_POSYDON_Warnings", "posydon/utils/posydonwarning.py:Catch_POSYDON_Warnings", "posydon/utils/posydonwarning.py:Pwarn"]}
{"id": "C44", "title": "The ignore reason of a run is the most important one reported", "statement": "After any sequence of assignments the stored reason is the highest-priority reason assigned since the last reset; unknown reasons raise and change nothing; other attributes cannot be set.", "quantifier": "all assignment sequences", "why_tests_cant": "Unbounded sequences.", "anchors": ["posydon/utils/ignorereason.py:IgnoreReason"]}
{"id": "C45", "title": "One-dimensional interpolation is exact at nodes, bounded in between and monotone", "statement": "For distinct abscissae in any order, interp1d builds a function that returns the node value at each node, lies on the line through the two neighbouring nodes in between (so between their values, and non-decreasing for non-decreasing nodes), and outside returns left/right if given, else the fill value of that side, else the end value; with fill_value='extrapolate' and at least two nodes it continues the end segments, ignoring left and right.  The order of the nodes does not matter.  Other kinds, fill values and lengths are refused; repeated abscissae are either refused or give one of the values.", "quantifier": "all node tables with distinct abscissae, fill values and evaluation points (exact arithmetic)", "why_tests_cant": "Continuous domain.", "anchors": ["posydon/utils/interpolators.py:interp1d"]}
{"id": "C46", "title": "Data that fail the checksum are never extracted", "statement": "A downloaded archive that matches its checksum is extracted and removed; one that does not match raises (as FileNotFoundError, because the archive has been removed and the reason is swallowed) and nothing is extracted, unless the archive cannot be read for the checksum or cannot be removed, in which case it is extracted without an error.  Unknown names and existing targets are refused before any download; after a failed download or extraction the archive stays and a retry is refused until it is removed.  A complete set downloads all its datasets in order; the default argument names a complete set and therefore always raises KeyError.", "quantifier": "all data set names and failure points", "why_tests_cant": "Crash points.", "anchors": ["posydon/utils/data_download.py:download_one_dataset"]}
{"id": "C47", "title": "Loading configuration files never silently overwrites", "statement": "Loading with can_update=False raises and leaves all entries if a name exists already, otherwise adds exactly the file's entries; with can_update=True the file's values win.  Saving and loading into an empty configuration restores plain values (arrays and tuples as lists, keys as text); objects json does not know are saved as null; a failed save destroys the previous file.  Attributes assigned by name are never entries and never saved; entries named like a method are not reachable as attributes.", "quantifier": "all dictionaries, files and operation sequences", "why_tests_cant": "Unbounded sequences.", "anchors": ["posydon/utils/configfile.py:ConfigFile.load", "posydon/utils/configfile.py:ConfigFile.save"]}
{"id": "C48", "title": "Effective spin, precession, chirp mass and mass ratio stay in their physical range", "statement": "mass_ratio is min/max, in (0,1], symmetric, NaN where a mass is NaN.  The chirp mass satisfies M^5 (m1+m2) = (m1 m2)^3, is symmetric, homogeneous, strictly increasing in each mass and between 2^(-1/5) times the smaller and the larger mass (strictly unless they are equal).  chi_eff is the mass-weighted mean of the spins' components, unchanged if the stars change places and between -k and k if the spins are; undefined spins and tilts count as 0 and are overwritten by 0 in the caller's arrays.  effective_precession is in [0,1] for spins in [0,1] if star 1 is at least as massive as star 2; otherwise it can exceed 1 (2.2 for masses 1 and 2) and changes if the stars change places.", "quantifier": "all positive masses, spins and tilts (real arithmetic)", "why_tests_cant": "Continuous domain.", "anchors": ["posydon/popsyn/transient_select_funcs.py:chi_eff", "posydon/popsyn/transient_select_funcs.py:mass_ratio", "posydon/popsyn/transient_select_funcs.py:m_chirp"]}
{"id": "C49", "title": "Which keywords SimulationProperties honours", "statement": "After construction a keyword argument is the attribute of its name, unless \"step\" occurs in the name: then it is only counted as the name of a step, and in particular max_n_steps_per_binary given as a keyword has no effect (the limit stays 100 unless extra_hooks names it).  Values named in extra_hooks are attributes unless a keyword overrides them; limits not given have their defaults; hook classes are kept in order, tuples of another form are ignored silently; each of the six grid paths is the absolute path of the given or default text.  Construction fails exactly if an item of extra_hooks is no tuple (ValueError) or a path is neither text nor None (TypeError).", "quantifier": "all keyword arguments, hooks and steps", "why_tests_cant": "Quantified over names.", "anchors": ["posydon/binary_evol/simulationproperties.py:SimulationProperties.__init__"]}
{"id": "C50", "title": "Track matchers after any sequence of loads", "statement": "After any sequence of load_a_step and load_steps calls, however each ends, every matcher belongs to exactly one metallicity and step, has that metallicity and the grids of that metallicity, no two steps share one, a step has at most one, and the grids in use are kept.  A successful load gives the step a matcher whose options are those given, else those of the matcher there was for this metallicity and step, else the defaults; the same matcher is used again exactly if no option that matters for training is given another value; other steps' matchers are untouched.  load_steps gives each step its own metallicity, else the last one an earlier step names, else the argument, else solar; loading again with another argument changes none.  Exceptions: after a failed retraining the matcher has options it was not trained with and the next identical load accepts it; matching options are lost when the tuple's metallicity is changed after loading; a step not provided makes load_steps fail.", "quantifier": "all sequences of loads, options, outcomes of opening grids and training", "why_tests_cant": "Cache histories.", "anchors": ["posydon/binary_evol/simulationproperties.py:SimulationProperties._check_track_matcher", "posydon/binary_evol/simulationproperties.py:SimulationProperties.create_track_matcher"]}
{"id": "C51", "title": "One formation time per binary, within the scenario's range", "statement": "get_formation_times returns n times: for a burst all equal burst_time (no random numbers used); for 'constant' independent uniform times between min_time and max_time; for custom ages max_time minus ages accepted under the tabulated density inside its range.  Names are case-insensitive and unknown ones raise ValueError.  For the histogram scenarios a single time is returned whatever n.", "quantifier": "all n, parameters, tables and random streams", "why_tests_cant": "Quantified over random streams and tables.", "anchors": ["posydon/popsyn/star_formation_history.py:get_formation_times"]}
{"id": "C52", "title": "Transient populations contain the transients of every binary once", "statement": "If the user's selection function treats binaries independently and returns the columns time and metallicity, create_transient_population stores exactly its rows for all binaries in file order, for every chunk size; without rows there is no table.  Missing or repeated columns raise ValueError and write nothing.  A function that is not binary by binary gives chunk-dependent results.", "quantifier": "all selection functions, files and chunk sizes", "why_tests_cant": "quantifies over user functions, files and chunk sizes", "anchors": ["posydon/popsyn/synthetic_population.py:Population.create_transient_population"]}
{"id": "C53", "title": "Observable populations cover the transients and belong to the population", "statement": "calculate_observable_population stores the function's rows for exactly the first c*ceil(n/c) transients, replaces an observable of the same name and leaves the others; it is stored per transient population and name, so calculating it for a second star-formation history overwrites the first one.", "quantifier": "all row-wise observability functions, tables, chunk sizes", "why_tests_cant": "quantifies over user functions, files and chunk sizes", "anchors": ["posydon/popsyn/synthetic_population.py:Rates.calculate_observable_population", "posydon/popsyn/synthetic_population.py:Rates.observable_population"]}
{"id": "C54", "title": "Efficiencies per channel add up to the total", "statement": "Each cell of the efficiency table is the sum of the model weights of the transients with that metallicity and channel, and the total the sum over all transients of the metallicity; if every transient has a channel other than 'total' the total is the sum of the channels.  Transients without channel only count in the total, and a channel called 'total' replaces it.", "quantifier": "all transient tables (exact arithmetic)", "why_tests_cant": "quantifies over all transient tables", "anchors": ["posydon/popsyn/synthetic_population.py:TransientPopulation.efficiency"]}
{"id": "C55", "title": "Interpolated stellar tracks return every column under its own key", "statement": "SingleStarInterpolator returns for every column, under its own key, the interpolant of its own data at t - offset, or its derivative where derivatives is set, and zero instead of a negative value where positives is set; keys lists exactly the given keys.  Fewer flags than columns raise IndexError.", "quantifier": "all column lists with distinct keys, flags, interpolants and times", "why_tests_cant": "quantifies over all groupings of columns and over the interpolating functions", "anchors": ["posydon/utils/interpolators.py:SingleStarInterpolator"]}
{"id": "C56", "title": "Tabulated star-formation histories distribute their mass over the bins", "statement": "For a table row with non-negative masses, some of them positive, the IllustrisTNG and Chruslinska+21 distribution function exists, does not decrease, is the accumulated mass fraction at every tabulated metallicity and 1 from metallicity 1 on.  Without normalisation, bins covering the whole table get 1 minus the share of the lowest tabulated metallicity, which is never assigned.  The row used for a redshift is that of the largest tabulated redshift not above it; below the table IllustrisTNG raises IndexError and Chruslinska+21 uses the smallest.", "quantifier": "all tables, bins, redshifts and increasing logarithms (exact arithmetic)", "why_tests_cant": "quantifies over all tables and bins", "anchors": ["posydon/popsyn/star_formation_history.py:IllustrisTNG.fSFR", "posydon/popsyn/star_formation_history.py:Chruslinska21.fSFR"]}
{"id": "C57", "title": "A star-formation history is built exactly when its parameters are complete", "statement": "get_SFH_model returns the class named by SFR exactly if its required parameters are present (sigma for the Madau-like ones, sub_model and a known Z_solar_scaling for Chruslinska+21, sigma and sub_model min or max for Zavala+21) and the limits are within [0,1] with Z_min < Z_max; otherwise it raises ValueError.  In particular the default parameters with another SFR name are refused for lack of sigma.", "quantifier": "all parameter dictionaries with an SFR entry", "why_tests_cant": "quantifies over all dictionaries", "anchors": ["posydon/popsyn/star_formation_history.py:get_SFH_model", "posydon/popsyn/star_formation_history.py:SFHBase.__init__"]}
{"id": "C58", "title": "Population options from an ini file are passed on and job arrays get distinct ranks", "statement": "If the four required sections exist, every option of BinaryPopulation_options and BinaryStar_output is passed on with its value, the options of a star's section are passed on exactly if its include option is true, and communicator, job number, rank and size are set according to MPI, job array or serial run; a missing section raises AssertionError and MPI in a job array ValueError.  The tasks of a job array without gaps get the ranks 0..n-1; with a step above one some task gets a rank that is not below the number of tasks.", "quantifier": "all ini files with distinct sections and options and all environments", "why_tests_cant": "quantifies over files and environments", "anchors": ["posydon/popsyn/io.py:binarypop_kwargs_from_ini"]}
{"id": "C59", "title": "Downsampled tracks stay within the error bound", "statement": "TrackDownsampler(t, X).downsample(max_err, scale_back=True) on a float track with strictly increasing t returns rows of the original track, unchanged and in order, with the first and the last among them.  Between two neighbouring returned rows that were not neighbours before, every dropped row lies within max_err of the straight line between them, as Euclidean distance with each column scaled by its range, and the two rows are at most max_interval apart (if it is given).  Hence linear interpolation in the returned rows recovers each dropped value to within max_err times the range of its column.  If the whole track is within the error of the straight line, only the two end rows are returned; with max_err=None or fewer than three rows nothing is dropped.  ValueError exactly for non-finite or negative max_err, t that is not strictly increasing, and input of the wrong dimension.  Exception: for integer tracks the values are truncated while being scaled, and come back different.", "quantifier": "all tracks of any length and dimension, all error bounds and interval limits (real arithmetic)", "why_tests_cant": "The bound concerns every dropped row of every track after a recursive selection; tests look at a handful of curves.", "anchors": ["posydon/grids/downsampling.py:TrackDownsampler"]}
{"id": "C60", "title": "Scrubbing leaves histories aligned, increasing and complete", "statement": "scrub returns, for every table given with its model numbers and ages, a subsequence of its rows in the original order: exactly the rows that are good (no later good row has a smaller-or-equal model number or age; the last row is good) and whose model number occurs in a good row of every other given table.  In the result all tables have the same strictly increasing model numbers, row by row, and strictly increasing ages; missing tables stay missing.  Tables without backsteps and with equal model numbers are returned unchanged.  Exception: a NaN as the last age leaves at most the last row.", "quantifier": "all lists of tables, model numbers and ages of matching lengths, any of them missing", "why_tests_cant": "Backsteps may be nested and differ between the tables; the claim is about all of them, including that nothing more than needed is dropped.", "anchors": ["posydon/grids/scrubbing.py:scrub"]}
{"id": "C61", "title": "Histories kept from the onset of mass transfer", "statement": "keep_after_RLO returns the binary and star histories from the first row in which the mass-transfer rate is at least the threshold or a Roche-lobe overflow is at least its threshold, with all columns as they were except that the age at that row has been subtracted from the ages (binary) and star ages (stars), so that the binary history starts at age 0.  Without a binary history the arguments are returned; without any such row the result is None; missing columns raise ValueError.  Exceptions: the rows are views, so that the caller's arrays get the shifted ages too, from the same row on; and if the ages from the onset on never decrease but two consecutive ones are equal, an Exception is raised.", "quantifier": "all binary and star histories with any columns and any rows", "why_tests_cant": "Needs all positions of the onset, all column sets and the aliasing with the caller's arrays.", "anchors": ["posydon/grids/scrubbing.py:keep_after_RLO"]}
{"id": "C62", "title": "Histories cut at central carbon depletion", "statement": "keep_till_central_abundance_He_C cuts all three histories at the same row if the last row of a star has central helium and carbon below the limits: at that star's first such row, or for two such stars at the one that is depleted first by age, the primary on a tie; the flag says which star it was.  The cut histories end with the first depleted row, unless that was the last row of the history, which is then dropped (so that no depleted row is left).  With a missing history, missing ages or no depleted star everything is returned unchanged with an empty flag.  Exception: if only the primary's history has the column star_age, ValueError is raised when both are depleted.", "quantifier": "all histories with any rows, all limits", "why_tests_cant": "The order of depletion, ties, the last row and the available columns combine in more ways than examples cover.", "anchors": ["posydon/grids/scrubbing.py:keep_till_central_abundance_He_C"]}
{"id": "C63", "title": "Scaling of data is undone by its inverse", "statement": "After a successful fit with any of the ten methods on usable data (two different values for the range and standard methods, a non-zero one for max_abs; positive data for log, negative for neg_log), transform applies a strictly increasing affine map to the value, its decimal logarithm or that of its negative, and inv_transform recovers every allowed value.  The fitted data themselves fill the interval [lower, upper] exactly, or have greatest absolute value 1 without shift, or have mean 0 and standard deviation 1.  Before a fit both raise AssertionError; fit raises AssertionError for anything but a one-dimensional array (object unchanged) and for lower >= upper, and ValueError for an unknown method or empty data.  Exceptions: constant data with a range method become NaN for good; a fit that failed leaves the object with the new method name, so that transform is the identity for an unknown method, or uses the parameters of the earlier fit.", "quantifier": "all data, methods, limits, earlier states of the scaler and transformed values (real arithmetic)", "why_tests_cant": "The inverse law is about all real values and all data sets, not the ones in a test.", "anchors": ["posydon/interpolation/data_scaling.py:DataScaler"]}
{"id": "C64", "title": "The termination code of a run comes from its last settling line", "statement": "get_flag_from_MESA_output reads the terminal output backwards.  The last line that settles the matter decides: a line starting with 'termination code: ' or 'Terminate: ' without 'min_timestep_limit' gives the rest of that line without surrounding white space; a line with both 'min_timestep_limit' and 'Reached TPAGB' (not starting so) gives 'Reached TPAGB'.  If no line settles it, the first announced code (all mention min_timestep_limit) is returned, and 'reach cluster timelimit' if there is none, if that code is blank, or if there is no file.  Hence a code announced before a later min_timestep_limit wins over it.", "quantifier": "all terminal outputs of any length with any lines, and missing files", "why_tests_cant": "The scan direction, the precedence of the two patterns and the memory of a skipped code interact over arbitrary logs.", "anchors": ["posydon/grids/termination_flags.py:get_flag_from_MESA_output"]}
{"id": "C65", "title": "The mass-transfer flag summarises the cases of all donors", "statement": "get_mass_transfer_flag returns 'None' for the three failure codes and 'initial_RLOF' for the two initial-overflow codes.  For any other code: 'contact_during_MS' if some row has both stars beyond their lobes; 'no_RLOF' if no row has a donor, where the donor of a row is the star with the larger relative overflow (star 1 if equal), provided it overflows or the rate exceeds 1e-10; 'initial_RLOF' if the first row has a donor and the run was not meant to start so.  Otherwise the flag is the text of the summary of the cases of all rows with a donor, in order: the case belongs to the donor's state at that row (undetermined if none), ten is added for star 2, cases of one donor never go back (they are raised to the latest so far), repetitions are merged, and '?' is put in front if star 1 has an undetermined case.  If a state needed for this cannot be read, an exception is raised.  Exception: after an undetermined case all later cases of star 1 are lost.", "quantifier": "all binary and star histories of any length (also missing or short ones), NaN and infinities included, all termination codes", "why_tests_cant": "The order of episodes in arbitrarily long histories is summarised; tests use histories of a few rows.", "anchors": ["posydon/grids/termination_flags.py:get_mass_transfer_flag", "posydon/grids/termination_flags.py:check_state_from_history"]}
{"id": "C66", "title": "Interpolation classes and combined labels", "statement": "infer_interpolation_class assigns exactly one class to every pair of flags, by the documented pools in order: initial_MT, not_converged, no_MT, stable_reverse_MT, stable_MT, unstable_MT, unknown.  For a run with a stable code whose mass-transfer flag is a summary, the class is stable_reverse_MT exactly if star 2 donates in some row and the first row in which star 1 donates has a classified state, and stable_MT otherwise.  combine_TF12 labels every run on its own; a '?' before 'case' is ignored; one episode is named by its case, several episodes of one donor by the first and the last one (n for non-burning, 'case n' if the first is), cut to 25 characters, episodes of both donors as reverse.  Exceptions: a reverse transfer is missed if star 1 was not classified at first; codes outside the pools such as 'Reached TPAGB' are unknown; a lone undetermined or BC episode has no label; labels are not injective.", "quantifier": "all pairs of flags, all runs, all lists of episodes of any length", "why_tests_cant": "The class of a run is a statement about its whole history through two layers of strings.", "anchors": ["posydon/grids/termination_flags.py:infer_interpolation_class", "posydon/visualization/combine_TF.py:combine_TF12"]}
{"id": "C67", "title": "Runs below the initial-overflow boundary are forced to initial overflow", "statement": "get_detected_initial_RLO lists, for the runs which ended because the initial model overflows, only such systems; every such run is followed, in order of non-shrinking period, by a listed one it was replaced by; if closeness of masses (both within 1e-5) is transitive among them, no two listed systems are close and each run has a close listed system with at least its period.  The same holds of the merged list of several grids.  With at least 20 listed systems the first nearest one in the plane of masses gives the limiting period, otherwise there is none.  Joining forces a run of another kind to initial_MT with the nearest system's states exactly if its period is below the limit, changes nothing else, and a second pass changes nothing more.  On creation the fix succeeds exactly if every run that does not overflow has readable grid points; each run is kept, forced or added to the grid by the same rule, and the table, the list of directories and the indices of the runs stay aligned.  Exceptions: closeness is not transitive, so that two entries may coincide and an entry may be far from the run it stands for.", "quantifier": "all grids and lists of grids of any size, all rational masses and periods", "why_tests_cant": "The fix depends on all runs of the grid at once and on the order in which they are met.", "anchors": ["posydon/grids/termination_flags.py:get_detected_initial_RLO", "posydon/grids/termination_flags.py:get_nearest_known_initial_RLO", "posydon/grids/psygrid.py:PSyGrid.create", "posydon/grids/psygrid.py:join_grids"]}
{"id": "C68", "title": "The initial parameters of a run are read back from its directory name", "statement": "For a directory whose name consists of fields name_value joined by '_', in any order, with different names among the known ones and values written with digits, '.', '+', '-', 'e', 'E', initial_values_from_dirname returns the texts of m1, m2, initial_period_in_days, initial_z (and initial_eccentricity if present), or of initial_mass and initial_z if there is an initial_mass, in this order; a missing field raises AssertionError for binaries and IndexError for single stars.  Two such runs have the same key exactly if all four texts agree.  Exceptions: keys are texts, so 10.0 and 10.00 differ; if 'v1/' occurs anywhere in the path the metallicity is not part of the key.", "quantifier": "all parent paths, all orders of fields, all values", "why_tests_cant": "Names are cut at the first occurrence of a field name; that no other field or value can contain it is a statement about all texts.", "anchors": ["posydon/grids/io.py:initial_values_from_dirname"]}
{"id": "C69", "title": "Joined grids hold the last run of each set of parameters", "statement": "join_grids succeeds exactly if there is a grid, every grid has exactly the known configuration keys, all later grids agree with the first in the twelve consistent settings and in the types of both tables, the first has format hdf5, every run has readable parameters and the compression is valid.  Then the new grid has exactly one run for each set of parameters whose last run (in the order of the grids and the runs in them) is not flagged ignored_no_RLO: that last run, with its initial values, its flags (after the initial-overflow fix if configured) and exactly its saved datasets.  The runs are ordered by the first run of these parameters after the last one that was left out.  The configuration has the given compression and description, None for the eight emptied settings and the first grid's values otherwise.  Exceptions: the format of later grids is not checked; substituted runs still count for the initial-overflow boundary.", "quantifier": "all lists of grids with any runs and datasets, all compressions", "why_tests_cant": "Substitution, removal and reordering over any number of grids; tests join two small files.", "anchors": ["posydon/grids/psygrid.py:join_grids"]}
{"id": "C70", "title": "Each run of a grid is found once, and its grid points are read", "statement": "GridReader finds a grid exactly if at least one run directory is found and all have readable parameters.  It then lists, for each set of parameters found in any folder path, exactly the directory found last (compressed runs after plain ones in each path), in the order in which the parameters are first met; its metadata files are those of the last path.  read_initial_values returns for a grid point file exactly the last setting of each column: a line with exactly one '=' sets the column named on its left (m1, m2 and initial_period_in_days renamed) to the number on its right, with an optional exponent after 'd'; every other line is skipped; the reading fails with a ValueError exactly if a line with one '=' has no such number.  Exceptions: the folders to be ignored are compared with absolute paths and never ignored; metadata files of earlier paths are lost; text after a second 'd' is ignored.", "quantifier": "all folder paths with any files, all grid point files, any conversion of texts to numbers", "why_tests_cant": "Which of several runs survives depends on the order over all paths; the grammar of lines is infinite.", "anchors": ["posydon/grids/io.py:GridReader._get_input_folders", "posydon/grids/io.py:read_initial_values"]}
{"id": "C71", "title": "Two merging stars become one star", "statement": "merged_star_properties accepts exactly the pairs of states in a table of eleven kinds of mergers (each pair has at most one kind) and raises ModelError for all others.  The more evolved star survives; the other becomes a massless remnant of mass 0 whose attributes are all NaN.  The merged star's mass is the sum of the masses (a fixed fraction of it for two main-sequence stars), core masses are added exactly for the kinds with two cores, mixed surface and central abundances are the averages with the stated weights, NaN if a value is not finite or the total weight is zero; the central values come from the star with a carbon-oxygen core if only one has one.  Luminosities, rates, radii, convective and lambda attributes are NaN, the rotation is the configured one and everything else is the survivor's.  With numbers in all attributes every accepted merger succeeds; with exact arithmetic the abundances of two merged main-sequence stars lie between those of the two.  A merger with a neutron star or black hole leaves the compact object as it is.  The step merges for oMerging1/2 in state merged and for oRLO1/2 of two helium stars, the numbered star being the base, and raises ValueError otherwise; exchanging the names of the stars exchanges the result; exactly one star is left.  Exceptions: the state of a merged star is never a burning one, except for two main-sequence stars; for two helium stars the base star's surface counts with the merged mass.", "quantifier": "all pairs of stars with any states and attributes (numbers, infinities, NaN, None), all float operations", "why_tests_cant": "The combinations of states, missing cores and non-finite attributes are far more than can be tried, and weights read from an object being changed depend on the order of statements.", "anchors": ["posydon/binary_evol/DT/step_merged.py:MergedStep.__call__", "posydon/binary_evol/DT/step_merged.py:MergedStep.merged_star_properties", "posydon/binary_evol/singlestar.py:convert_star_to_massless_remnant"]}
{"id": "C72", "title": "Isolated stars evolve on a set-aside orbit", "statement": "The isolated step (also for disrupted and merged systems) succeeds exactly if the state is initially_single_star, merged or disrupted, the separation can be computed and the detached step succeeds; the detached step sees a period of 1e99 days, eccentricity 0 and the corresponding separation, and the result is its result with NaN for all three.  Other states raise FlowError.  The step for initially single stars raises AttributeError for any other state.  A merged step passes exactly the merged pair in state merged to the detached step.  The end step sets the event END and changes nothing else unless the system is disrupted.  Exception: the step for initially single stars does not clear the event.", "quantifier": "all systems, all detached steps and separations", "why_tests_cant": "The claim is about any evolution of the star in between.", "anchors": ["posydon/binary_evol/DT/step_isolated.py:IsolatedStep.__call__", "posydon/binary_evol/DT/step_initially_single.py:InitiallySingleStep.__call__", "posydon/binary_evol/DT/step_disrupted.py:DisruptedStep.__call__", "posydon/binary_evol/step_end.py:step_end.__call__"]}
{"id": "C73", "title": "Core masses decide the type of a supernova", "statement": "With finite masses check_SN_type classifies by the CO core with Tauris+15 (white dwarf below 1.37, ECSN up to 1.43, CCSN above) or without an ECSN prescription (white dwarf below 1.37, CCSN otherwise) and by the helium core with Podsiadlowski+04 (1.4, 2.5); the three classes are disjoint and cover all masses.  It raises ModelError exactly if both cores are absent and the star is not below 0.5 solar masses.  A white dwarf has the mass of the CO core, else the helium core, else the star, and fallback fraction 1; every other type leaves mass, fraction and state None.  An unknown prescription or a NaN in the deciding mass raises ValueError.  check_SN_CO_match accepts a state exactly for the types which can produce it.  Exception: without an ECSN prescription a NaN core is a CCSN.", "quantifier": "all core and star masses, all prescriptions, all types and states", "why_tests_cant": "The thresholds partition a continuum of masses in three ways; tests sample it.", "anchors": ["posydon/binary_evol/SN/step_SN.py:StepSN.check_SN_type", "posydon/binary_evol/SN/step_SN.py:check_SN_CO_match"]}
{"id": "C74", "title": "Remnant masses follow the chosen mechanism and stay within the collapsing star", "statement": "With finite masses a core-collapse remnant of the rapid (delayed) mechanism is the piecewise function of CO core and collapsing mass published by Fryer et al. (2012), with the fallback fraction relating it to proto-compact mass and collapsing mass; electron capture gives 1.38 or the CO core without fallback; direct collapse gives the whole collapsing mass.  For nested masses every such remnant is at least 1.1 and at most the collapsing mass and the fallback fraction is in [0,1].  The delayed remnant grows with the CO core at fixed collapsing mass of at least 1.4.  A pair-instability limit replaces a heavier remnant (type PPISN), removes it if NaN (PISN) and changes no lighter one and no white dwarf.  Exceptions: delayed with a CO core of exactly 11 raises UnboundLocalError; direct_he_core is accepted at construction but every collapse raises; without an ECSN prescription the delayed fraction exceeds 1 and the remnant exceeds the collapsing mass for collapsing masses below 1.4; the rapid remnant is not monotone; a limited remnant keeps fallback fraction 1.", "quantifier": "all rational masses, all configurations, all engines", "why_tests_cant": "Piecewise formulas over two continuous masses; boundary points and monotonicity across pieces are not sampled.", "anchors": ["posydon/binary_evol/SN/step_SN.py:StepSN.compute_m_rembar"]}
{"id": "C75", "title": "Pair instability leaves a mass gap", "statement": "With Marchant+19 the limit on the remnant is a polynomial of the helium core for cores in [31.99,61.10], between 12 and 44.4 and at most half a solar mass above the core, NaN for cores in (61.10,124.12) and the whole collapsing mass otherwise.  So if the hydrogen envelope is not conserved no remnant of any mechanism is heavier than 44.4 unless the helium core is at least 124.12, and cores in between leave no remnant.  A number as PISN limits exactly the stars with heavier helium cores.  With Hendriks+23 a positive mass loss leaves no remnant or one of at least 10 and at most the mass minus the loss; without loss the limit is the whole collapsing mass.  Unknown names raise ValueError.  Exceptions: between 32.2 and 34.4 the limit exceeds the helium core; with the envelope conserved the gap is filled and the number exceeded.", "quantifier": "all rational masses and metallicities, all mechanisms and engines, any logarithm", "why_tests_cant": "The bound on a degree-8 polynomial over an interval and for every mechanism cannot be sampled.", "anchors": ["posydon/binary_evol/SN/step_SN.py:StepSN.PISN_prescription", "posydon/binary_evol/SN/step_SN.py:StepSN.compute_m_rembar"]}
{"id": "C76", "title": "Neutrinos carry away a bounded part of the baryonic mass", "statement": "The gravitational mass of a remnant is the solution of m = g + 0.075 g^2, or the baryonic mass minus the largest allowed neutrino loss if the solution would lose more.  It is positive, at most the baryonic mass, within the allowed loss of it, strictly increasing, and reaches any g exactly at baryonic mass min(g+0.075 g^2, g+loss); delta_M is the difference.  The inverse used by the asymmetric-ejecta kick recovers the baryonic mass exactly if the loss is not limited.  Exception: for limited losses it overestimates the baryonic mass, by more than 6 solar masses in an example.", "quantifier": "all nonnegative real masses and loss limits", "why_tests_cant": "Monotonicity and bounds over a continuum with a change of formula.", "anchors": ["posydon/binary_evol/SN/step_SN.py:StepSN.collapse_star", "posydon/binary_evol/SN/step_SN.py:StepSN.generate_kick"]}
{"id": "C77", "title": "Kick velocities follow prescription and normalisation", "statement": "generate_kick returns 0 without a dispersion and otherwise succeeds exactly for the four normalisations and the five prescriptions; the kick is the normalisation factor times the prescribed speed.  The factor is in [0,1] for fallback fractions in [0,1] and black holes of at least 1.4.  With nonnegative samplers the speed is negative exactly for the linear prescription with 115 times the CO core below 100 times the remnant mass.  The deprecated normalisations asym_ej and linear become prescriptions with factor one.  Exception: the linear prescription gives negative kicks.", "quantifier": "all real masses, dispersions, means and samples", "why_tests_cant": "Samples are random; signs and ranges for all masses are not testable.", "anchors": ["posydon/binary_evol/SN/step_SN.py:StepSN.generate_kick", "posydon/binary_evol/SN/step_SN.py:StepSN.__init__"]}
{"id": "C78", "title": "A collapse without stored outcomes leaves the computed remnant", "statement": "If stored outcomes are not used, a completed collapse started in a core-collapse state and its result is determined by the computed remnant (mass, fraction, state, type): a white dwarf with that mass, a massless remnant for PISN, or, from core masses or without spin, a neutron star or black hole decided by comparing the gravitational mass with the maximal mass of neutron stars, with spin 0 or from the angular momentum, and all other attributes cleared.  With a profile a black hole has the mass and spin of the collapse of the profile and a neutron star its gravitational mass and spin 0.  A failure happens only for another state or if neither core masses nor spin None are allowed.  Exceptions: the radius of a white dwarf is computed and erased; without a profile the decision of a lookup engine between neutron star and black hole is ignored, with one a black hole below the maximal mass fails.", "quantifier": "all stars, configurations, mechanisms, engines, profile collapses", "why_tests_cant": "The claim covers every combination of options and attribute values.", "anchors": ["posydon/binary_evol/SN/step_SN.py:StepSN.collapse_star"]}
{"id": "C79", "title": "Stored collapse outcomes are used exactly when they fit", "statement": "With use_interp_values the stored outcome for the selected model is used exactly if its type equals the type computed from the star's present cores, this is not ECSN, its state can result from the type, and it has a mass which is not NaN: then the star gets the stored state and values and the radius for its mass, metallicity is lost and the rest cleared.  Otherwise the collapse is the one without stored outcomes (from core masses, for ECSN).  A star without stored outcome collapses as without the option.  Exception: no stored PISN or PPISN outcome is ever used.", "quantifier": "all stars, stored outcomes and configurations", "why_tests_cant": "Equality of two executions for all stars cannot be tested.", "anchors": ["posydon/binary_evol/SN/step_SN.py:StepSN.collapse_star", "posydon/binary_evol/SN/step_SN.py:check_SN_CO_match"]}
{"id": "C80", "title": "The supernova step collapses the right star and leaves the binary ready for the next step", "statement": "The step runs exactly for the events CC1 and CC2 and collapses star 1 or 2; any other event raises ValueError.  If the collapse fails the binary is marked ERR/FAILED and nothing else changes.  Otherwise the mass of the remnant is the collapsed one, a white dwarf stays one and a neutron star or black hole is classified again by its mass alone (white dwarf below 1.1, neutron star up to 2.5, black hole above); the companion keeps its mass and loses its mass-loss rates.  The event afterwards is None, except CC of the other star exactly if it is carbon depleted next to a compact object in a binary which is not disrupted.  The inspiral time is NaN for a disrupted or massless system and that of the new orbit for two compact objects.  Exceptions: the configured maximal neutron-star mass is overridden by 2.5; a neutron star below 1.1 makes the drawing of the kick raise; with kicks switched off the collapse of star 2 leaves the separation unchanged and a disrupted binary is declared detached.", "quantifier": "all binaries, configurations, collapses, random draws", "why_tests_cant": "The claim is about every outcome of the collapse and every orbit; tests fix a few.", "anchors": ["posydon/binary_evol/SN/step_SN.py:StepSN.__call__", "posydon/binary_evol/binarystar.py:BinaryStar.update_star_states", "posydon/utils/common_functions.py:infer_star_state"]}
{"id": "C81", "title": "The position on the orbit at the explosion is the one of the mean anomaly", "statement": "For eccentricities below 1 and a mean anomaly in [0, 2 pi] Kepler's equation has exactly one solution in [0, 2 pi].  The true anomaly computed from it satisfies the polar equation of the ellipse (cosine and sine).  The speed and its direction at the explosion are those of the Kepler orbit: the energy is that of the separation, the tangential component is within the rounding of five digits of the exact one and the radial component has the sign of the half orbit.", "quantifier": "all eccentricities, anomalies, masses, separations", "why_tests_cant": "Existence and uniqueness of roots and trigonometric identities over a continuum.", "anchors": ["posydon/binary_evol/SN/step_SN.py:StepSN.orbital_kick"]}
{"id": "C82", "title": "The orbit after a supernova is the Kepler orbit of the kicked star", "statement": "For valid inputs the new separation and eccentricity are those of the Kepler orbit through the position at the explosion with the old velocity plus the kick and the new total mass; the systemic velocity is the change of the centre-of-mass velocity; the tilt is the signed angle between the old and new orbital angular momenta.  A binary survives a non-negative kick exactly if its new energy is negative and the new angular momentum does not vanish, and the new orbit passes through the position of the explosion.  Exception: a negative kick of sufficient size disrupts the binary whatever its energy.", "quantifier": "all masses, orbits, anomalies, kicks (real numbers)", "why_tests_cant": "A geometrical identity over nine real parameters.", "anchors": ["posydon/binary_evol/SN/step_SN.py:StepSN.orbital_kick"]}
{"id": "C83", "title": "Mass loss and kicks change orbits as known analytically", "statement": "Sudden mass loss without a kick from a circular orbit disrupts exactly if at least half of the mass is lost, and otherwise gives a(m')/(2m'-m), eccentricity (m-m')/m', no tilt and the Blaauw velocity.  Without mass loss and kick the separation stays, there is no tilt and no velocity and the square of the eccentricity changes by at most 1e-5.  A kick larger than the sum of orbital and escape speed always disrupts, one smaller than their difference and than the tangential speed never does.  Exception: an orbit with eccentricity below 0.0026 is circularised by a supernova that changes nothing, at a quarter of the orbit.", "quantifier": "all masses, orbits, kicks", "why_tests_cant": "Closed formulas and inequalities over all parameters.", "anchors": ["posydon/binary_evol/SN/step_SN.py:StepSN.orbital_kick"]}
{"id": "C84", "title": "Spin-orbit tilts of two supernovae combine by rotations", "statement": "rotate gives the rotation of Rodrigues about the axis, defined exactly for axes other than zero and preserving lengths and the axis.  get_combined_tilt is always defined and is the angle whose cosine is cos t1 cos t2 - cos(dnu) sin t1 sin t2; it lies in [0, pi], is the absolute value of the other tilt if one of them is zero and of the sum for equal anomalies.", "quantifier": "all axes, angles, tilts, anomalies", "why_tests_cant": "Trigonometric identities for all angles.", "anchors": ["posydon/binary_evol/SN/step_SN.py:StepSN.get_combined_tilt", "posydon/utils/common_functions.py:rotate"]}
{"id": "C85", "title": "A supernova records its kick and updates the binary consistently", "statement": "The attributes of the kick which are given are used and kept, the others are drawn and stored, those of the companion do not change; the dispersion is that of the type of supernova and the kind of remnant.  A binary already without an orbit gets NaN for its orbit and keeps its state and tilts; a massless remnant disrupts the binary.  Otherwise the orbit, velocity, period and tilt are those computed from masses, orbit and the recorded kick: detached with the new values or disrupted with NaN.  A first supernova gives both stars the tilt; a second gives the exploding star its tilt and the companion the combined one.  A star that becomes a white dwarf widens the orbit as slow mass loss of that star.  Exceptions: the systemic velocity of a first supernova is forgotten at the second; a binary whose first supernova is only declared by its flag never survives a second one.", "quantifier": "all binaries, configurations, given and drawn kicks, both events", "why_tests_cant": "All combinations of given and drawn values and of states; random draws.", "anchors": ["posydon/binary_evol/SN/step_SN.py:StepSN.orbital_kick"]}
{"id": "C86", "title": "A configuration selects exactly the predefined supernova model it equals", "statement": "get_SN_MODEL_NAME returns the name of predefined model i exactly if the eleven options mechanism, engine, PISN, PISN_CO_shift, PPI_extra_mass_loss, conserve_hydrogen_envelope, conserve_hydrogen_PPI, max_neutrino_mass_loss, max_NS_mass, allow_spin_None and approx_at_he_depletion are present and equal to those of the model; the models exclude each other.  ECSN, the options use_* and anything else have no influence.  The options of each predefined model lead back to it; an unknown name gives the default options, which lead to the first model.  An ini file that passes check_SN_MODEL_validity runs with the model it was checked for or without interpolated values.  Exceptions: a file that omits an option is refused although the step would fill in the default, and one without use_interp_values raises KeyError.", "quantifier": "all dictionaries of options, all 28 models, all names", "why_tests_cant": "Any dictionary may be given; exclusion of the models is a statement about all pairs and all values.", "anchors": ["posydon/grids/SN_MODELS.py:get_SN_MODEL", "posydon/grids/SN_MODELS.py:get_SN_MODEL_NAME", "posydon/CLI/popsyn/setup.py:check_SN_MODEL_validity"]}
{"id": "C87", "title": "Explosion engines give the documented remnant", "statement": "The values at helium depletion are those of the first step in that state, H-rich before stripped.  Patton20 and Maltsev25 refuse other engines; a CO core up to 2.5 gives a neutron star of 1.25, one of at least 10 a black hole of the whole star (or helium core) with fallback 1; between, Patton20 explodes exactly if mu4 <= k1 mu4 M4 + k2 with the constants of the engine, Maltsev25 by the votes of compactness and entropy, undecided cases by mu4 M4 and the line of Mueller et al.; an explosion leaves a neutron star of mass M4, in Maltsev25 outside the region of certain neutron stars and for a draw up to 0.15 a black hole with fallback 0.99.  Sukhbold16 and Couch20 take the kind of remnant of a row with the nearest helium core among neutron stars and black holes without fallback; neutron stars of Sukhbold16 stay within the range of the table, masses are linear between neighbouring rows, and a helium core above the table collapses entirely; Couch20 gives 1.4 or the whole star.  Exceptions: with conserved envelope Sukhbold16 reads the table of helium cores at the mass of the star, so the black hole differs from the star and may be heavier; below the table a black hole may be heavier than the star; Couch20 with verbose raises AttributeError.", "quantifier": "all stars, tables, regression results, random draws, engines", "why_tests_cant": "Decision regions over continuous parameters, all tables and all draws.", "anchors": ["posydon/binary_evol/SN/step_SN.py:StepSN.Patton20_corecollapse", "posydon/binary_evol/SN/step_SN.py:StepSN.Maltsev25_corecollapse", "posydon/binary_evol/SN/step_SN.py:StepSN.explod_crit", "posydon/binary_evol/SN/step_SN.py:StepSN.NS_vs_fallbackBH", "posydon/binary_evol/SN/step_SN.py:Sukhbold16_corecollapse", "posydon/binary_evol/SN/step_SN.py:Couch20_corecollapse", "posydon/utils/common_functions.py:calculate_Patton20_values_at_He_depl"]}
{"id": "C88", "title": "A common envelope spends exactly the orbital energy its efficiency allows", "statement": "The separation after a common envelope is positive and no larger than before times the ratio of the products of the masses; efficiency times the orbital energy freed equals the energy G m (m - core) / (lambda R) that held the envelope or, for a double common envelope, both; the orbit is wider the larger efficiency and lambda are.  Afterwards one_phase_variable_core_definition keeps that orbit; two_phases_windloss and two_phases_stableMT first test the cores for overflow there and then lose the rest down to the core of the star, as a wind from each star (period times total mass squared constant) or, single common envelopes of two_phases_stableMT, through the companion; the result merges exactly if one of the two overflows its Roche lobe by the tolerance.  Exceptions: a lambda that is NaN ejects for free, and the two-phase options change the separation by the factor 1.00009 between the conversions of C17 even when nothing is left to lose.", "quantifier": "all efficiencies, periods, positive masses with cores no heavier than their stars, radii, lambdas, options", "why_tests_cant": "An energy balance over continuous parameters; tests check single numbers.", "anchors": ["posydon/binary_evol/CE/step_CEE.py:StepCEE.CEE_simple_alpha_prescription", "posydon/binary_evol/CE/step_CEE.py:StepCEE.CEE_one_phase_variable_core_definition", "posydon/binary_evol/CE/step_CEE.py:StepCEE.CEE_two_phases_stableMT", "posydon/binary_evol/CE/step_CEE.py:StepCEE.CEE_two_phases_windloss"]}
{"id": "C89", "title": "period_change_stable_MT obeys the angular momentum balance", "statement": "For positive masses, the donor losing mass, a fraction alpha of it lost from the donor, beta of the rest from the accretor: the period as a function of the donor's mass solves the differential equation of orbital angular momentum in which the lost mass carries the specific angular momentum of the star it leaves; for beta = 1 too, where the code has a different formula.  No change of mass changes nothing; the change in steps equals the change at once; conservative transfer keeps the product of the masses cubed times the period, pure wind the total mass squared times the period.  alpha or beta outside [0, 1] or a donor that gains mass raise ValueError.", "quantifier": "all periods, masses, alpha, beta in [0, 1]", "why_tests_cant": "A differential equation over all masses; beta = 1 is a limit.", "anchors": ["posydon/utils/common_functions.py:period_change_stable_MT"]}
{"id": "C90", "title": "What the common envelope step leaves behind", "statement": "Only the events oCE1, oCE2, oDoubleCE1 and oDoubleCE2 are accepted; donors on the main sequence, helium main sequence and, if pessimistic, in the Hertzsprung gap merge at once and no star is touched.  Otherwise the core comes from the attributes named by the options (default lambda, grid, profile), other donors raise ValueError.  On ejection the binary is detached and circular with the separation and period of C88, its event is core collapse of the donor exactly if that was a helium star depleted of helium, the listed other attributes become NaN, and the rest stays; the donor (in a double common envelope both stars) becomes a bare core with the mass, radius and surface of the option; the companion of a single one is untouched.  On a merger the state is merged, the event names the donor, masses are reduced by the losses of C91 and radii become NaN.  Masses never exceed those of the cores.  Unknown keywords are refused when the step is made, unknown prescriptions and options when it runs.  Exceptions: in two phases a double common envelope gives the companion the radius of the donor's core; the flow chart sends donors here that the step refuses (C-burning, He-shell burning, accreted He, compact objects in contact); after an ejection the grid's lambda is NaN but its core values remain, so a second common envelope ejects for free down to the old core.", "quantifier": "all binaries, configurations, results of profile integration, matching and state classification", "why_tests_cant": "Quantifies over every attribute of every binary and every option; the exceptions need combinations no test builds.", "anchors": ["posydon/binary_evol/CE/step_CEE.py:StepCEE.__call__", "posydon/binary_evol/CE/step_CEE.py:StepCEE.calculate_lambda_CE", "posydon/binary_evol/CE/step_CEE.py:StepCEE.CEE_adjust_binary_upon_ejection", "posydon/binary_evol/CE/step_CEE.py:StepCEE.CEE_adjust_binary_upon_merger", "posydon/binary_evol/CE/step_CEE.py:StepCEE.adjust_secondary_radius", "posydon/binary_evol/flow_chart.py"]}
{"id": "C91", "title": "Mass lost by stars that merge in a common envelope", "statement": "With mass_loss_during_CEE_merged, stars of a double common envelope shrink their orbit until the first core fills its Roche lobe; efficiency times the energy freed is shared in the ratio of the envelopes; each star loses what its profile gives for its share, but if that is more than its envelope it keeps core plus 0.01 solar masses; no star loses its core.  Without the profile of every star with an envelope nothing is lost.  Exceptions: in a single common envelope with a profile the step fails (variables without value) whenever the stars merge, so no merger is ever reported; a star with an envelope below 0.01 gains mass.", "quantifier": "all stars, cores, profiles, separations, efficiencies", "why_tests_cant": "Energy sharing and limits over continuous parameters.", "anchors": ["posydon/binary_evol/CE/step_CEE.py:StepCEE.CEE_adjust_mass_loss_during_CEE_merged"]}
{"id": "C92", "title": "Gravitational radiation in the detached step is Peters' law with a small correction", "statement": "default_gravrad gives Peters' (1964) rates of separation and eccentricity, in Rsun and years, times 1 minus a factor (5 to 11 for the separation, 7.8 to 10 for the eccentricity) of the gravitational radius over the semi-latus rectum; so orbits shrink and become rounder whenever the latter is at least 11 times the former.  Exception: below 5 times it the same formula makes the orbit grow.", "quantifier": "all separations, eccentricities in [0, 1), masses", "why_tests_cant": "A relation to a physical law for all orbits; tests check a few numbers of the same formula.", "anchors": ["posydon/binary_evol/DT/gravitational_radiation/default_gravrad.py:default_gravrad"]}
{"id": "C93", "title": "Two compact objects spiral in exactly by Peters' law until they touch or time is over", "statement": "For bound binaries of two compact objects with positive masses the equations that DoubleCO integrates have exactly one solution; along it separation and eccentricity change with time at Peters' rates; the time to shrink to a separation lies between that of a circular orbit and the same times (1-e^2)^3.5 over Peters' enhancement factor, and is at most 8 (1-e^2)^3.5 times the circular merger time.  The step ends with CO_contact, at the time when the separation is the sum of the radii, exactly if that is before the maximum time, and otherwise with maxtime at the maximum time with an orbit not wider and not more eccentric than before.  States at intermediate times are those of times that are off by at most 3e-12 of the timescale of the orbit.  Exceptions: after orbits with 1-e^2 below 2^-12 (and whenever contact comes within 2.3e-12 timescales) the merger is recorded with the separation before it; objects that overlap from the start merge at an earlier time than they started; unbound ones (e >= 1) merge at once; one that starts after the maximum time merges after it.", "quantifier": "all masses, separations, eccentricities, times, kinds of compact objects", "why_tests_cant": "Needs the theory of a differential equation; tests integrate single cases numerically.", "anchors": ["posydon/binary_evol/DT/double_CO.py:DoubleCO.solve_ODEs", "posydon/binary_evol/DT/double_CO.py:DoubleCO.__call__", "posydon/binary_evol/DT/double_CO.py:double_CO_evolution.rhs", "posydon/binary_evol/DT/double_CO.py:_SBrentqDenseOutput", "posydon/utils/common_functions.py:CO_radius"]}
{"id": "C94", "title": "inspiral_timescale agrees with the evolution of two compact objects", "statement": "inspiral_timescale_from_separation succeeds exactly for positive masses and separation and eccentricity in [0, 1).  Along the evolution by DoubleCO the time that passes (in Myr) is the merger time before minus the merger time after.  It is positive, equals the circular merger time for e = 0, lies between that and the same times (1-e^2)^3.5 over Peters' enhancement factor, and grows with the fourth power of the separation.", "quantifier": "all masses, separations, eccentricities", "why_tests_cant": "Relates an integral to the solution of a differential equation in another module.", "anchors": ["posydon/utils/common_functions.py:inspiral_timescale_from_separation", "posydon/binary_evol/DT/double_CO.py:double_CO_evolution.rhs"]}
{"id": "C95", "title": "Winds in the detached step keep separation times total mass, and the spin loses what a shell carries", "statement": "While winds are the only effect, the separation times the total mass of the binary does not change, whichever stars lose mass; orbits never shrink by winds.  The angular momentum of a star decreases exactly by that of a shell with its radius and the mass lost, 2/3 R^2 omega mdot, whatever its moment of inertia does.  Exception: where contraction would spin a star up by more than 100 rad/yr per year the increase is cut off there, and angular momentum disappears even without wind.", "quantifier": "all masses, radii, spins, winds, changes of the moment of inertia", "why_tests_cant": "A conservation law along every evolution; tests check single values of the rates.", "anchors": ["posydon/binary_evol/DT/winds/default_winds.py:default_spin_from_winds", "posydon/binary_evol/DT/winds/default_winds.py:default_sep_from_winds"]}
{"id": "C96", "title": "Tides conserve angular momentum and only ever lose energy", "statement": "While tides are the only effect, the orbital angular momentum plus that of both spins does not change, and the orbital energy plus that of both spins never increases; it is constant exactly if each star has no extent or turns at the rate of a circular orbit, and then nothing changes.  Circular orbits stay circular; in them slow stars are spun up and fast ones spun down.  An orbit becomes rounder if no star turns faster than 18/11 of the mean motion.  The roles of the stars do not matter.", "quantifier": "all separations, eccentricities in [0, 1), masses, radii, spins, moments of inertia, envelope structures", "why_tests_cant": "Conservation laws that hold by polynomial identities between the five functions of the eccentricity; tests check single values.", "anchors": ["posydon/binary_evol/DT/tides/default_tides.py:default_tides"]}
{"id": "C97", "title": "Magnetic braking spins stars down by the published torques", "statement": "Each prescription only ever spins stars down, does nothing to stars that do not turn, is full below 1.3, zero from 1.5 solar masses, and linear between.  In cgs units the torques are those of Rappaport et al. 1983 (RVJ83), Garraffo et al. 2018 (G18) and, for the secondary and unsaturated primaries, Matt et al. 2015 (M15).  Exceptions: for a primary in the saturated regime M15 is larger by the number of seconds in a year, so that equal stars are braked differently; M15 jumps at the limit of saturation, where a star that turns 5 per cent faster is braked less; CARB is the torque of Van and Ivanova 2019 divided by the square of the seconds in a year, and for the primary it is reduced by the mass of the secondary instead of its own.", "quantifier": "all stars with positive properties", "why_tests_cant": "Equality with formulas in other units for all stars; tests compare the code with numbers from the same code.", "anchors": ["posydon/binary_evol/DT/magnetic_braking/prescriptions.py:RVJ83_braking", "posydon/binary_evol/DT/magnetic_braking/prescriptions.py:M15_braking", "posydon/binary_evol/DT/magnetic_braking/prescriptions.py:G18_braking", "posydon/binary_evol/DT/magnetic_braking/prescriptions.py:CARB_braking"]}
{"id": "C98", "title": "The detached step adds up exactly the effects that are switched on", "statement": "The rates of separation, eccentricity and spins are the sums of those of the effects that are switched on, each computed as if alone; negative values count as 0 and eccentricities below 0.001 as 0.  The integration ends when a star fills 95 per cent of its Eggleton Roche lobe at periastron (or all of it, for the relative criterion, which is never met first) or when the age on its track reaches the end.  Exception: an unknown prescription for braking raises TypeError instead of the documented warning.", "quantifier": "all switches, stars and states", "why_tests_cant": "Additivity over all 32 combinations of switches and all states.", "anchors": ["posydon/binary_evol/DT/step_detached.py:detached_evolution.__call__", "posydon/binary_evol/DT/step_detached.py:detached_evolution.update_props", "posydon/binary_evol/DT/step_detached.py:detached_evolution.magnetic_braking", "posydon/binary_evol/DT/step_detached.py:detached_evolution.ev_rlo1", "posydon/binary_evol/DT/step_detached.py:detached_evolution.ev_rlo2", "posydon/binary_evol/DT/step_detached.py:detached_evolution.ev_rel_rlo1", "posydon/binary_evol/DT/step_detached.py:detached_evolution.ev_rel_rlo2", "posydon/binary_evol/DT/step_detached.py:detached_evolution.ev_max_time1"]}
{"id": "C99", "title": "The detached step gives the roles of primary and secondary by how evolved the stars are", "statement": "The primary is the more evolved star, in the order hydrogen-rich, helium star, compact object, missing; star 1 if the stars are alike.  A star that is missing counts as a compact object and uses the grid of the other one; hydrogen-rich stars are matched to the grid of hydrogen-rich, helium stars to that of helium stars; a single compact object is recognized as such.  Exchanging stars of different kind exchanges the roles.  Two missing stars are refused with POSYDONError, unknown states with ValueError.", "quantifier": "all pairs of states, known or not", "why_tests_cant": "Every pair of states, with all unknown names.", "anchors": ["posydon/binary_evol/track_match.py:TrackMatcher.determine_star_states", "posydon/binary_evol/binarystar.py:BinaryStar.check_who_exists"]}
{"id": "C100", "title": "The detached step ends in overflow, collapse or at the maximum time, and leaves an orbit that fits", "statement": "At the start, a star that fills 95 per cent of its Roche lobe at periastron ends the evolution as initial overflow.  When a star begins to overflow the orbit becomes circular: at periastron, where the star still fills the same fraction of its lobe, or with the same angular momentum, where it fills less by the factor 1 + e; Kepler's law still holds, so the assertion about the period never fails; state and event name that star.  Two stars of which neither is depleted in carbon and at least one is hydrogen-rich fail, unless a step for them exists.  Otherwise the end of a track means core collapse of that star, and no event the maximum time.  In the default flow chart overflow is followed by a step exactly if the other star is a compact object and the donor not depleted in carbon, or both are helium-rich.  Exception: if the secondary collapses while the primary, of another mass, is in any state from which stars may collapse (as burning hydrogen in a shell), POSYDONError is raised, wherever the primary is on its track; in the other direction it is not, so the order of two stars matters.", "quantifier": "all orbits, masses, states, outcomes of the integration", "why_tests_cant": "All outcomes of the integration with all states; the integration is replaced in tests.", "anchors": ["posydon/binary_evol/DT/step_detached.py:detached_step.__call__"]}
{"id": "C101", "title": "The times stored by the detached step", "statement": "With a number of steps n, n equally spaced times are stored, the last being the end of the integration.  With a time step, multiples of it after the start; the last time is not before the end and less than half a step after it.  Without either, only the end.  A time step has priority; numbers that are not positive count as absent.  Exceptions: with a time step the last time, which becomes the age of the binary, may lie after the end of the integration; and if the evolution lasts no longer than half a step, IndexError is raised.", "quantifier": "all starts, ends, steps and numbers of steps", "why_tests_cant": "A statement about rounding for all intervals and steps.", "anchors": ["posydon/binary_evol/DT/step_detached.py:detached_step.get_time_after_evo"]}
{"id": "C102", "title": "A star matched to a single star keeps its rate of rotation", "statement": "The rate of rotation after matching is the angular momentum divided by the moment of inertia before it; where these are unknown that of the surface, then the given fraction of the critical rate of the star's (or the track's) mass and radius, then 0.  A rotating star keeps the record of its angular momentum and its critical rate.  Exceptions: as the moment of inertia becomes that of the track, the angular momentum is multiplied by the ratio of the moments of inertia, and the record does not show it; a star with unknown surface rate is recorded without rotation although the integration starts with the rate from its angular momentum.", "quantifier": "all combinations of known and unknown rotational properties", "why_tests_cant": "An identity over all values and all combinations of missing ones.", "anchors": ["posydon/binary_evol/track_match.py:TrackMatcher.calc_omega", "posydon/binary_evol/track_match.py:TrackMatcher.update_rotation_info", "posydon/binary_evol/track_match.py:TrackMatcher.update_star_properties"]}
{"id": "C103", "title": "What stars and binaries carry after the detached step", "statement": "Every property of a star is copied from the column of the track in the units of the grid, or computed consistently with the others: angular momentum is spin times moment of inertia, the dimensionless spin c J/(G M^2), the ratio to critical that of a sphere, rates of mass loss are logarithms; stars that do not turn get 0 and -99.  State (until inferred) and metallicity are kept.  Exceptions: lg_system_mdot, he_core_radius and surface_c12 become NaN; the profile None; conv_env_turnover_time_l_b is stored in years while the grid and the other turnover times are in seconds.  Of the binary time and orbit and overflow are new, its state, event, velocity, mass transfer case and distance are kept, everything else becomes NaN.", "quantifier": "all values of the track, all spins, all properties", "why_tests_cant": "A statement about all properties at once for all values.", "anchors": ["posydon/binary_evol/DT/step_detached.py:detached_step.update_after_evo", "posydon/utils/key_library.py", "posydon/binary_evol/track_match.py:TrackMatcher.get_star_match_data"]}
{"id": "C104", "title": "Rows the detached step adds to the history", "statement": "If one time is stored, one row is added.  If n > 1 are stored, n + 1 rows are added, the last time twice (before and after the final event is known), and the state of a star is inferred anew for each of them.  Exception: in the first of the rows the state is that from before the step.", "quantifier": "all histories, numbers of times and states", "why_tests_cant": "A statement about all lengths; an error of the indexing from the end.", "anchors": ["posydon/binary_evol/DT/step_detached.py:detached_step.__call__", "posydon/binary_evol/DT/step_detached.py:detached_step.update_after_evo", "posydon/binary_evol/binarystar.py:BinaryStar.append_state"]}
{"id": "C105", "title": "The Eddington limit of a compact object", "statement": "The limit is 4 pi G M / (0.2 (1 + X) eta c), with X the hydrogen at the surface of the donor, in solar masses per year.  For a neutron star it does not depend on the mass; for a black hole it grows with it.  The accretor is the only compact object, and star 1 if both are.  The limit does not change if other stars' properties do.  Exceptions: the radius of a white dwarf is computed with the mass in grams, so that its efficiency is too large by the cube root of Msun in grams (1.26e11), exceeding 1e6, and the limit too small; if several rows are asked for only that of the last is returned; a row before the collapse raises ValueError.", "quantifier": "all binaries with a compact object, masses, compositions and rows", "why_tests_cant": "Expected values of tests are copied from the output; an error of units shows only against the formula for all masses.", "anchors": ["posydon/utils/common_functions.py:eddington_limit", "posydon/utils/common_functions.py:CO_radius"]}
{"id": "C106", "title": "Beaming of a source above the Eddington limit", "statement": "Up to 8.5 times the limit there is no beaming (factor 1) and above it the factor is 73 over the square of the ratio, so the apparent luminosity is the isotropic over the factor.  Exception: between 8.5 and the root of 73 (8.544) times the limit the factor exceeds 1, and the apparent luminosity drops when the rate passes 8.5.", "quantifier": "all rates of mass transfer and limits", "why_tests_cant": "Monotonicity over all ratios.", "anchors": ["posydon/utils/common_functions.py:beaming"]}
{"id": "C107", "title": "Accretion of a wind in the Bondi-Hoyle regime", "statement": "The velocity of the wind follows Hurley's table by spectral type, or Kudritzki's by the effective temperature, times the escape velocity; of the accretion the captured fraction is (G M)^2 over velocities and separation, at the position given by a random mean anomaly; the relative speed is that of two vectors at that position (or its mirror image); the rate is capped by the Eddington limit unless the cap is off; without a disk it is 1e-99.  Exceptions: giants above 900 Rsun never get the slow wind intended for them, as the value is overwritten; an unknown scheme raises UnboundLocalError; the captured rate may exceed the rate of the wind.", "quantifier": "all stars, orbits, rows and random anomalies", "why_tests_cant": "The random anomaly is replaced in tests; ranges over all stars.", "anchors": ["posydon/utils/common_functions.py:bondi_hoyle"]}
{"id": "C108", "title": "The boundary of the core in a profile", "statement": "With a fraction of at most 0.9, the core of a hydrogen-rich star begins at the outermost shell with at most that fraction of hydrogen; that of a helium star, or the carbon-oxygen core of a hydrogen-rich one, where hydrogen and helium together have at most that fraction; -1 (all envelope) if there is none, if abundances are missing, or for other states.  By core mass, the outermost shell below it.  Exception: if no shell is below the core mass the result is 0, which means that the whole star is core.", "quantifier": "all profiles, states, fractions and core masses", "why_tests_cant": "The first shell with a property, for all profiles.", "anchors": ["posydon/utils/common_functions.py:calculate_core_boundary"]}
{"id": "C109", "title": "Energies of the shells of a star", "statement": "The masses of the shells add up to what lies above a shell, and together to the star.  The binding energy of the outer shells is the sum of - G m dm / r plus the given fraction of the internal energy; gravitation alone grows with depth and is at least G m (M - m) / R.  The internal energy is nothing (gravitational), the energy of the profile less that of forming hydrogen molecules, or that less the recombination energy: 13.6 eV per ionized hydrogen, 24.6 and 54.4 per first and second electron of helium, between 0 and that of full ionization.  Unknown names are refused with ValueError if the profile has energies.  Exceptions: the checks against negative energies only fail if every shell is negative; a profile with log_R but no radius is read but refused when the energy is computed.", "quantifier": "all profiles and options", "why_tests_cant": "Sums over all numbers of shells; identities of physics for all compositions.", "anchors": ["posydon/utils/common_functions.py:get_mass_radius_dm_from_profile", "posydon/utils/common_functions.py:get_internal_energy_from_profile", "posydon/utils/common_functions.py:calculate_H2recombination_energy", "posydon/utils/common_functions.py:calculate_recombination_energy", "posydon/utils/common_functions.py:profile_recomb_energy", "posydon/utils/common_functions.py:calculate_binding_energy"]}
{"id": "C110", "title": "The structure parameter lambda of a common envelope", "statement": "For a hydrogen-rich star and its helium core, mass and radius of the core lie between those of the shells around the boundary, where hydrogen interpolated linearly falls to the fraction; the binding energy is interpolated with the same weight, and lambda times energy times radius is - G M (M - mc).  With gravitation alone there always is a lambda, positive, at most M over the mass at the boundary, and it does not depend on the units of mass and length.  Without envelope lambda is NaN and the core is the star, without core its mass and radius are 0.  Exceptions: stars that accreted helium are refused with ValueError unless the boundary is at the surface or absent; for carbon-oxygen cores the boundary is found with hydrogen and helium but interpolated with helium alone, so that the mass of the core may exceed that of the star.", "quantifier": "all profiles, states, fractions and options", "why_tests_cant": "Relations between the results for all profiles; dimensional consistency.", "anchors": ["posydon/utils/common_functions.py:calculate_lambda_from_profile"]}
{"id": "C111", "title": "How much of an envelope a given energy unbinds", "statement": "With a positive energy, the shells above the last one whose overlying shells are bound by less than that energy are ejected, but nothing of the core: between nothing and the envelope, and not less for more energy.  Exception: with no energy to spend (zero or negative) the whole envelope is ejected.", "quantifier": "all profiles, energies and cores", "why_tests_cant": "A loop over all numbers of shells; monotonicity relates two runs.", "anchors": ["posydon/utils/common_functions.py:calculate_Mejected_for_integrated_binding_energy"]}
{"id": "C112", "title": "Interpolation between two shells", "statement": "Between two given shells the value is on the straight line: the values of the shells are found again, and targets between those of the shells have values between.  If the shells are not given they are the first at or above the target and the one before.  Exception: if the target is above all shells the result is the first value instead of the last.", "quantifier": "all columns, targets and pairs of shells", "why_tests_cant": "All columns and targets.", "anchors": ["posydon/utils/common_functions.py:linear_interpolation_between_two_cells"]}
{"id": "C113", "title": "Which binaries the grid of hydrogen-rich stars overflowing onto compact objects takes", "statement": "Given a compact object and a star the grid is for that overflows at the onset: a star depleted of carbon is sent to its collapse; if masses and period are within the grid and the orbit is circular the binary is evolved, turned round if star 2 overflows; with a period outside, or masses inside and an eccentric orbit, it is returned as detached with the event redirect_from_CO_HMS_RLO; with masses outside a GridError is raised; anything else is a FlowError.  Exchanging the stars exchanges the outcome.", "quantifier": "all grids, states, events, masses, periods and eccentricities", "why_tests_cant": "A nest of conditions on twelve values; tests hold a few combinations.", "anchors": ["posydon/binary_evol/MESA/step_mesa.py:CO_HMS_RLO_step.__call__"]}
{"id": "C114", "title": "Which binaries the grid of helium stars overflowing onto compact objects takes", "statement": "As C113 for helium stars, but for this exception: by the precedence of and and or, a binary that is to be redirected is refused with GridError if star 1 is heavier than the largest mass of the grid for the companion, or star 2 heavier than that for the star; so exchanging the stars may turn a redirected binary into an error.", "quantifier": "all grids, states, events, masses, periods and eccentricities", "why_tests_cant": "A nest of conditions; the exception needs particular masses outside the ranges.", "anchors": ["posydon/binary_evol/MESA/step_mesa.py:CO_HeMS_RLO_step.__call__"]}
{"id": "C115", "title": "Which binaries the detached grid of helium stars and compact objects takes", "statement": "If the helium star is star 1 the rule is that of C113 with the event redirect_from_CO_HeMS.  Exception: if it is star 2, binaries the grid does not take are judged as if star 1 were the helium star, so that one to be redirected may be refused with GridError and the reverse.", "quantifier": "all grids, states, events, masses, periods and eccentricities", "why_tests_cant": "Symmetry under exchange of the stars relates two runs for all binaries.", "anchors": ["posydon/binary_evol/MESA/step_mesa.py:CO_HeMS_step.__call__"]}
{"id": "C116", "title": "Which binaries the grid of two main-sequence stars takes", "statement": "At the zero age main sequence, with a period within the grid: if star 1 can be the primary (mass in range, the companion at least half a solar mass, mass ratio between that at this minimum and the largest of the grid) the binary is evolved; else if star 2 can, turned round; else GridError.  A period outside redirects from ZAMS without changing the state of the binary.  The eccentricity does not matter.  Carbon depletion goes to the collapse, star 1 first; the rest is a FlowError.  Exception: to be turned round the mass of star 2 may also be at most twice the square of that of star 1, as the smallest mass ratio is computed from the wrong star.", "quantifier": "all grids with mass ratios up to 1, positive masses, periods, states and events", "why_tests_cant": "Symmetry under exchange of the stars for all masses.", "anchors": ["posydon/binary_evol/MESA/step_mesa.py:MS_MS_step.__call__"]}
{"id": "C117", "title": "Which binaries the grid of overflowing hydrogen-rich stars takes", "statement": "At the onset of overflow: carbon depletion goes to the collapse; a period outside, or an eccentric orbit, returns a detached binary with the event redirect_from_HMS_HMS_RLO; otherwise the binary is evolved if star 1 can be the primary.  Exceptions: the stars are never turned round, so a heavier star 2 is refused with GridError; an eccentric binary with star 2 heavier than the largest mass for it is refused.", "quantifier": "all grids whose smallest mass is that of the companion, positive masses, periods, states and events", "why_tests_cant": "Symmetry under exchange of the stars for all masses.", "anchors": ["posydon/binary_evol/MESA/step_mesa.py:HMS_HMS_RLO_step.__call__"]}
{"id": "C118", "title": "The flow chart sends to the grids what they take", "statement": "For every binary that the chart sends to one of the steps with a grid, the step does not raise a FlowError, and if the step returns it unevolved then the chart sends it to the detached step.  Exceptions: the donors H-rich_Shell_He_burning and accreted_He_Shell_H_burning, which the chart sends to the grid with a compact object and the step refuses; the event redirect_from_HMS_HMS_RLO is in no chart; of the binaries with evolvable stars at the onset of overflow, which the eccentric chart sends to the grid of overflowing stars, exactly those with a star in one of six states raise a FlowError.", "quantifier": "all grids and binaries; all changes of the eccentric chart", "why_tests_cant": "Two files have to agree for every combination of states.", "anchors": ["posydon/binary_evol/flow_chart.py:flow_chart", "posydon/binary_evol/MESA/step_mesa.py:CO_HMS_RLO_step", "posydon/binary_evol/MESA/step_mesa.py:CO_HeMS_RLO_step", "posydon/binary_evol/MESA/step_mesa.py:CO_HeMS_step", "posydon/binary_evol/MESA/step_mesa.py:MS_MS_step", "posydon/binary_evol/MESA/step_mesa.py:HMS_HMS_RLO_step"]}
{"id": "C119", "title": "Ranges of a grid", "statement": "The range of a parameter of a grid is from the smallest to the largest initial value of the runs that have an initial and a final value, and these are attained; without such a run ValueError.", "quantifier": "all grids", "why_tests_cant": "All numbers and orders of runs.", "anchors": ["posydon/binary_evol/MESA/step_mesa.py:MesaGridStep._find_boundaries"]}
{"id": "C120", "title": "The histories after a step with the nearest track", "statement": "If the histories of the binary and the star in the track have the same number of rows, then after the step all histories of binary and stars grew by the same rows: the first of the track if the initial row is saved, all but the last if the track is followed; the current values are the last row of the track, times are shifted to the age of the binary.  Exceptions: with both options the first row is there twice; with neither UnboundLocalError; if the histories in the track differ in length, so do those of binary and stars.", "quantifier": "all tracks, binaries and options", "why_tests_cant": "All numbers of rows; the relation between all properties.", "anchors": ["posydon/binary_evol/MESA/step_mesa.py:MesaGridStep.update_properties_NN"]}
{"id": "C121", "title": "Stopping in the middle of a track", "statement": "Stopping at a time inside the track with interpolation, times and histories keep the rows up to it, numbers are on the line between the rows around it, and the time is the one wanted; if rows are flushed states are inferred again.  Without interpolation the binary is reset to the last row up to the time.  Exceptions: without flushing, states are those of the last row of the track and not of a row before the stop; a time at or after the end of the track raises IndexError.", "quantifier": "all histories of equal length, times and options", "why_tests_cant": "All rows and times.", "anchors": ["posydon/binary_evol/MESA/step_mesa.py:MesaGridStep.stop_at_condition", "posydon/binary_evol/MESA/step_mesa.py:MesaGridStep.interpolate_at_t"]}
{"id": "C122", "title": "A step with a grid respects the maximal time and the condition to stop", "statement": "With stop_at_max_time the step never ends beyond the maximal time, and the mark of the ending tells how the time compares to it.  With the nearest track it ends at the end of the track or the maximal time, whichever is first; if tracks are not followed the histories are as before, plus the saved initial row.  A condition, with the nearest track and without interpolation, stops at the last row that meets it.  A binary overflowing initially is not evolved.  Exceptions: a track ending exactly at the maximal time raises IndexError; the condition never works with stop_interpolate (the default), without tracking, or if the last model meets it.", "quantifier": "all tracks, binaries, maximal times and options", "why_tests_cant": "All tracks and times; invariants of the whole step.", "anchors": ["posydon/binary_evol/MESA/step_mesa.py:MesaGridStep.__call__", "posydon/binary_evol/MESA/step_mesa.py:MesaGridStep.stop_at_end", "posydon/binary_evol/MESA/step_mesa.py:MesaGridStep.stop_at_condition"]}
{"id": "C123", "title": "The accretion rate recorded for a compact object after a track", "statement": "The current rate is that of overflow plus the captured wind, at most the Eddington limit.  Exception: in the rows of the track the limit is compared with the logarithm of the rate, so it does not apply below one solar mass per year.", "quantifier": "all rates and limits", "why_tests_cant": "A mix of logarithmic and linear quantities shows only for rates above the limit.", "anchors": ["posydon/binary_evol/MESA/step_mesa.py:MesaGridStep.update_properties_NN"]}
{"id": "C124", "title": "Spin of a black hole after stable accretion", "statement": "From a spin between 0 and 1 and with mass gained, the spin is between the old one and 1, does not decrease with the mass, is the old one without gain and 1 exactly if it was or the mass grew by at least the root of the innermost stable radius.  Lost mass gives NaN; missing, negative or (for masses) zero values give None.", "quantifier": "all spins and masses", "why_tests_cant": "Monotonicity and bounds over the reals, with roots of roots.", "anchors": ["posydon/utils/common_functions.py:spin_stable_mass_transfer"]}
{"id": "C125", "title": "The innermost stable orbit of a rotating black hole", "statement": "For spins from 0 to 1 the radius is between 6 and 1 gravitational radii and solves the equation of marginal stability; for spins below 1 the specific angular momentum is 2 / (3 sqrt 3) (1 + 2 sqrt (3 r - 2)) G M / c, between 2 / sqrt 3 and 2 sqrt 3 of G M / c, and the efficiency is the energy of that orbit, between 1 / sqrt 3 and sqrt (8 / 9).", "quantifier": "all spins and masses", "why_tests_cant": "Identities between formulas with cube roots.", "anchors": ["posydon/binary_evol/SN/profile_collapse.py:compute_isco_properties", "posydon/utils/common_functions.py:spin_stable_mass_transfer"]}
{"id": "C126", "title": "Where a collapsing profile is cut", "statement": "All shells that end at or below the collapsing mass fall, and the first above it; the whole star if its mass is not above.  The hole first forms from the centre up to the shell nearest to the given mass.", "quantifier": "all profiles with increasing enclosed mass and all masses", "why_tests_cant": "All numbers of shells.", "anchors": ["posydon/binary_evol/SN/profile_collapse.py:get_initial_BH_properties", "posydon/utils/gridutils.py:find_index_nearest_neighbour"]}
{"id": "C127", "title": "The collapse of a profile to a black hole", "statement": "The centre has the angular momentum of its shells less the part of the neutrinos: 2/5 M R^2 omega for a rigid uniform ball.  The mass of the hole and what the disk radiates add up to the mass of the shells that fall, less the neutrinos; the spin is between 0 and 1; the radiated mass is at most sqrt 3 - 1 of the accreted disk, the jet at most the energy of the disk.  Each shell leaves mass in the disk exactly if its angular momentum is above that of the innermost stable orbit, and what it adds has a closed form; spin above 1 raises ValueError.  A star without rotation collapses as a whole, without spin and disk.  Neutrino losses below 0 or above the maximum raise ValueError.  Exceptions: more than the collapsing mass may fall, as the shell at its boundary falls as a whole; the default None for the neutrino loss raises TypeError; without profile the mass in solar masses is divided by the mass of the sun in grams; if the centre takes all shells the spin is not limited and may exceed 1.", "quantifier": "all well-formed profiles, masses and neutrino losses, all integrations of the angular momentum of the centre that give no negative value", "why_tests_cant": "A loop over all shells; conservation has to hold for all of them.", "anchors": ["posydon/binary_evol/SN/profile_collapse.py:do_core_collapse_BH", "posydon/binary_evol/SN/profile_collapse.py:get_initial_BH_properties", "posydon/binary_evol/SN/profile_collapse.py:BZ_jet_power"]}
{"id": "C128", "title": "Hydrogen and helium ejected by a collapse", "statement": "Each shell that begins above the mass of the compact object counts with its mass times the mass fraction, the others with nothing.  So with proper fractions both masses are at least 0, together at most the mass of the star less that of the compact object (0 if it is heavier), and do not grow with that of the compact object.  Exceptions: the part of the shell at the boundary that is ejected is not counted; if only the outermost shell ends above, the result is 0, and UnboundLocalError with verbose.", "quantifier": "all profiles with increasing enclosed mass, and compact masses", "why_tests_cant": "Sums over all numbers of shells.", "anchors": ["posydon/binary_evol/SN/profile_collapse.py:get_ejecta_element_mass_at_collapse"]}
{"id": "C129", "title": "Inequalities between interpolated quantities", "statement": "With one group of different quantities that should descend, each becomes the smallest of the given values up to it (the first of a logarithmic group through its power of ten), the first is left as it is, neighbours that are numbers descend afterwards, other quantities and the order of all are unchanged, and a group that descends already is left alone.  Exception: a missing value in the middle separates the group, so that a carbon-oxygen core may stay heavier than its star.", "quantifier": "all dictionaries and groups, all values including NaN", "why_tests_cant": "Any number of quantities with real values.", "anchors": ["posydon/interpolation/constraints.py:correct_inequality"]}
{"id": "C130", "title": "Fractions that should sum to a value", "statement": "If the sum of the values is within 1e-9 of the target, or one is missing, nothing changes; otherwise all are multiplied by the same factor and their sum is the target; if the sum is 0 all become NaN.  Exceptions: negative values are not corrected, so that fractions need not be between 0 and 1; a quantity instead of a number as the target raises TypeError whenever there is something to correct.", "quantifier": "all dictionaries, groups and targets", "why_tests_cant": "Any number of quantities with real values.", "anchors": ["posydon/interpolation/constraints.py:correct_sum"]}
{"id": "C131", "title": "The convective region fits into the star", "statement": "A region that has a positive thickness and lies within the star, or of which a value is missing, is left alone.  Otherwise radius and thickness are moved along the line to the centroid of the admissible region onto one of its sides (to the region of full thickness if the radius is half that of the star), and fit afterwards within 1e-9.  Exceptions: with a thickness of a third of the radius of the star AssertionError is raised, and with a line parallel to a side LinAlgError.", "quantifier": "all radii and thicknesses", "why_tests_cant": "Whether an intersection is always valid is a statement about all real values; the exceptions are isolated lines.", "anchors": ["posydon/interpolation/constraints.py:get_thickness_n_radius"]}
{"id": "C132", "title": "All constraints hold together after sanitizing", "statement": "After the constraints that apply to the outputs of an interpolator have been enforced one after the other, all of them hold of the final values, for each star there is: the law of Stefan and Boltzmann, Kepler's third law, the sum of the nuclear luminosities, rates of mass loss at most that of mass transfer, the transferred fraction (in [0, 1], consistent with the rates), all chains, the convective regions, the sums.  A law with a missing value gives a missing value.  The values stay in their places and only dependent quantities of the laws can be added, behind them.  Exception: these make the result longer than the outputs if an interpolator does not have them.", "quantifier": "all outputs, all values including NaN, whenever no exception is raised", "why_tests_cant": "Whether a later constraint spoils an earlier one depends on all pairs of 52 corrections and on all values.", "anchors": ["posydon/interpolation/constraints.py:sanitize_interpolated_quantities", "posydon/interpolation/constraints.py:CONSTRAINTS", "posydon/interpolation/IF_interpolation.py:test_interpolator"]}
{"id": "C133", "title": "Which constraints apply to an interpolator", "statement": "A constraint applies if all its quantities (for the primary) are outputs; of one with several groups, the groups that are.  Served later, an interpolator gets the same if all its outputs were outputs of the earlier one.  Exception: as groups are struck from the constraints of the module themselves, an interpolator with fewer outputs, before or after in the same process, removes bounds from the other.", "quantifier": "all lists of constraints and outputs, and sequences of two calls", "why_tests_cant": "The effect is on another object, in a later call.", "anchors": ["posydon/interpolation/constraints.py:find_constraints_to_apply"]}
{"id": "C134", "title": "Tracks between those of a grid", "statement": "For a mass between two of the grid, every quantity of the interpolated track has the same number of rows, from a common first row (the first where 99 percent of the interpolated luminosity is from hydrogen, else the very first) to the end of the shorter run; each value is the mean of those of the two neighbouring runs in the same row, weighted by mass, and ages are counted from the first row, start at 0 and do not decrease.  At a mass of the grid it is the track of the first run with this mass.  Outside the grid ValueError is raised.  Exception: tracks do not approach that of a mass of the grid: they lack its last rows if a neighbour is shorter.", "quantifier": "all grids with columns of equal length, all masses and keys", "why_tests_cant": "Alignment concerns all pairs of quantities, at all masses.", "anchors": ["posydon/interpolation/interpolation.py:GRIDInterpolator.get", "posydon/interpolation/interpolation.py:GRIDInterpolator.load_grid"]}
{"id": "C135", "title": "Final values between those of a grid", "statement": "For a mass between two of the grid, a final value is interpolated linearly between the nearest lower and the nearest higher mass that have it, and missing exactly if there is none on one side; the search ends.  At a mass of the grid it is the value of its first run.  Exception: if that is missing, so is the result, though it is not at any mass beside.", "quantifier": "all grids, masses and keys", "why_tests_cant": "Any pattern of missing values.", "anchors": ["posydon/interpolation/interpolation.py:GRIDInterpolator.get_final_values"]}
{"id": "C136", "title": "Final states between those of a grid", "statement": "The final state for a mass within the grid is that of a run with the nearest mass, the heavier if two are equally near.", "quantifier": "all grids, masses and keys", "why_tests_cant": "A statement about all masses of all grids.", "anchors": ["posydon/interpolation/interpolation.py:GRIDInterpolator.get_final_state"]}
{"id": "C137", "title": "Final profiles between those of a grid", "statement": "A profile for a mass between two of the grid has the cells of one of the neighbouring runs, the one whose innermost cell is further out as a fraction of the mass, so that nothing is extrapolated; in each the value is the mean, weighted by mass, of the run's and of the other's on the straight line between the two cells that enclose the same fraction of mass.", "quantifier": "all grids with strictly decreasing positive masses in the profiles", "why_tests_cant": "A statement about all profiles and masses.", "anchors": ["posydon/interpolation/interpolation.py:GRIDInterpolator.get_profile"]}
{"id": "C138", "title": "The nearest track", "statement": "After training, a binary with positive masses and period gets a run that converged, with known initial values, and no such run is nearer in the logarithms of masses and period (mass ratio instead of the second mass if so chosen); a binary with the initial values of such a run gets a run with these values.  Training succeeds exactly if there is such a run and all have positive values.  Exceptions: with the keys in another order the binary's values are compared with others, so that a binary with the values of a run may get another; another number of keys is never accepted; a failed attempt to train with another method makes a trained interpolator unusable.", "quantifier": "all grids and binaries", "why_tests_cant": "Nearest among all runs of any grid, for any point.", "anchors": ["posydon/interpolation/interpolation.py:psyTrackInterp.train", "posydon/interpolation/interpolation.py:psyTrackInterp.evaluate"]}
{"id": "C139", "title": "Which runs an initial-final interpolator uses", "statement": "Values are interpolated between exactly those runs whose class is none of not_converged, ignored_no_BH, ignored_no_RLO and initial_MT and, if the mass ratio is an input, whose masses differ.  For classification the runs of ignored_no_BH and initial_MT with known inputs are used too.  Exceptions: runs with missing inputs are not discarded, and neither are those without a binary history (ignored_no_binary_history).", "quantifier": "all grids of runs", "why_tests_cant": "A statement about the flags of all runs of any grid.", "anchors": ["posydon/interpolation/IF_interpolation.py:BaseIFInterpolator._setValid", "posydon/interpolation/IF_interpolation.py:BaseIFInterpolator.__init__"]}
{"id": "C140", "title": "Scaling by class", "statement": "With scalings by class the outputs of a class are scaled according to the runs of that class, and so are the inputs if no run is used for classification only.  Rows of classes without a scaling are left as they are.  Exceptions: if some runs are used for classification only, inputs are scaled according to runs of other classes, so that they leave [-1, 1] by far; scalings given as documented, as a list of strings, always lead to an exception; the scalings chosen for the inputs of a class are alike for all inputs.", "quantifier": "all grids, scalings and classes", "why_tests_cant": "Whether rows and classes are aligned shows only for particular orders of the runs of a grid.", "anchors": ["posydon/interpolation/IF_interpolation.py:Scaler", "posydon/interpolation/IF_interpolation.py:MatrixScaler", "posydon/interpolation/IF_interpolation.py:BaseIFInterpolator.__init__", "posydon/interpolation/IF_interpolation.py:BaseIFInterpolator._bestInScaling"]}
{"id": "C141", "title": "What an initial-final interpolator predicts", "statement": "With one interpolator for each class: at the inputs of a used run that is classified rightly the prediction is its outputs, if no run of the class with other outputs has the same scaled inputs; elsewhere each value lies between those of two used runs of the predicted class (also when logarithms are interpolated); outside of the hull of the runs, or with 1NN, the outputs are those of one run of the class; a class without interpolator gives NaN.  A binary classified as initial_MT gets NaN everywhere, unless the classification is 1NN.  Exceptions: with a single linear interpolator for all classes the predicted values are left scaled, and outside of the hull AttributeError is raised.", "quantifier": "all grids, binaries, suitable scalings, exact linear and nearest-neighbour interpolators", "why_tests_cant": "A statement about all points and all grids.", "anchors": ["posydon/interpolation/IF_interpolation.py:BaseIFInterpolator.train_interpolator", "posydon/interpolation/IF_interpolation.py:BaseIFInterpolator.test_interpolator", "posydon/interpolation/IF_interpolation.py:MC_Interpolator", "posydon/interpolation/IF_interpolation.py:LinInterpolator", "posydon/interpolation/IF_interpolation.py:NNInterpolator", "posydon/interpolation/IF_interpolation.py:BaseIFInterpolator.evaluate_mat"]}
{"id": "C142", "title": "Results of several interpolators", "statement": "The dictionary for a binary has the keys of the outputs with their values (for a 1NN interpolator NaN in place of -100), the keys given as NaN with NaN, and no others.  Several interpolators are accepted exactly if each names its outputs and none is named twice; in their union a key has the value its own interpolator gives.  A binary with another number of inputs is refused.", "quantifier": "all interpolators, keys and binaries", "why_tests_cant": "All lists of keys.", "anchors": ["posydon/interpolation/IF_interpolation.py:IFInterpolator.__init__", "posydon/interpolation/IF_interpolation.py:IFInterpolator.evaluate", "posydon/interpolation/IF_interpolation.py:BaseIFInterpolator.evaluate", "posydon/interpolation/IF_interpolation.py:BaseIFInterpolator.evaluate_mat"]}
{"id": "C143", "title": "Samples for cross validation", "statement": "The indices of training and test samples together are all indices, each once; with labels, of the samples of a label the first are for training, in the number asked for, and the rest for testing.  Exception: with labels, all repetitions have the same training and the same test samples, only in another order.", "quantifier": "all numbers of samples, labels and shuffles", "why_tests_cant": "A statement about all random permutations.", "anchors": ["posydon/interpolation/IF_interpolation.py:xval_indices"]}
{"id": "C144", "title": "Missing values are filled from neighbours", "statement": "After filling no output of a used run is missing; values that were there stay; a missing one becomes that of another used run having it, or 0 if none has it.  A key is reported as always missing exactly if no used run has it.", "quantifier": "all grids", "why_tests_cant": "Any pattern of missing values.", "anchors": ["posydon/interpolation/IF_interpolation.py:BaseIFInterpolator._fillNans"]}
{"id": "C145", "title": "Slopes and frequencies after Moe & Di Stefano (2017)", "statement": "The slopes of the mass ratio and eccentricity distributions and the twin fraction are continuous in the logarithm of the period, with no jump at any of their breaks, as is the frequency of companions; the slopes are continuous in the logarithm of the primary's mass too.  For primaries of 0.8 to 40 Msun the frequency of companions is positive, the twin fraction in [0, 1), and the probability to be the inner binary in [0, 1] and 1 up to log P = 1.5.", "quantifier": "all primary masses and periods", "why_tests_cant": "Continuity and positivity over real intervals.", "anchors": ["posydon/popsyn/Moes_distributions.py:Moe_17_PsandQs.__init__"]}
{"id": "C146", "title": "Tables of the distributions", "statement": "The quadrature is exact for linear functions.  For every suitable set of supporting points the table of mass ratios increases strictly from 0 to 1, that of periods from 0 to the integral of the frequency of inner binaries, and that of eccentricities from 0 to 1, reaching 1 below the maximal eccentricity of the period, so that an eccentricity drawn from it stays below that.  Exception: a period above two days for which no supporting eccentricity is in [0.8, 1] times the maximal one makes the constructor fail with ValueError.", "quantifier": "all supporting points and numbers drawn", "why_tests_cant": "All resolutions and ranges of the grid that a user may choose.", "anchors": ["posydon/popsyn/Moes_distributions.py:Moe_17_PsandQs._idl_tabulate", "posydon/popsyn/Moes_distributions.py:Moe_17_PsandQs.__init__"]}
{"id": "C147", "title": "Samples after Moe & Di Stefano (2017)", "statement": "For primaries above 0.8 Msun: the secondary's mass, the period, eccentricity and metallicity are in the ranges of the supporting points; the eccentricity is below the maximal one of the nearest supporting period; without all_binaries the star is single exactly if the first number drawn is at least the fraction of binaries; the period is at most P with the probability that the table gives for P, and likewise the mass ratio.  Below 0.8 Msun the mass ratio is at least any supporting one not above M_min/M1.  Exceptions: with all_binaries, the default, all numbers from the fraction of binaries on give exactly the maximal period; below 0.8 Msun the secondary can be less massive than M_min.", "quantifier": "all primaries, supporting points and numbers drawn", "why_tests_cant": "A statement about all random numbers and a distribution.", "anchors": ["posydon/popsyn/Moes_distributions.py:Moe_17_PsandQs.__call__"]}
{"id": "C148", "title": "Selection of gamma-ray bursts", "statement": "If in the history of every binary with a radiated disk of the star the star becomes a black hole in the supernova step exactly once, and not in its first row, GRB_selection returns one row for each of these binaries, in order, with the values of its own rows before and after, its time in Myr, its oneline values and its channel up to the star's collapse.  If such a binary lacks that pair of rows and none has more than one, ValueError is raised.  Exception: values are attributed by order only, so that a surplus in one binary and a lack in another give a binary the values of another one.", "quantifier": "all histories, oneline tables and channels", "why_tests_cant": "Masks are shifted across the rows of all binaries; whether rows of neighbours mix depends on all of them.", "anchors": ["posydon/popsyn/transient_select_funcs.py:GRB_selection"]}
{"id": "C149", "title": "Selection of merging black holes", "statement": "BBH_selection_function returns one row for every binary of the oneline table, with the time of its END in Myr, the values of its row at which both stars are black holes after the supernova step in a detached binary, and their difference in time, NaN where it has none.  It fails with ValueError exactly if some binary has two such rows or two ENDs.  If binaries end after their second collapse no time of inspiral is negative.", "quantifier": "all histories and oneline tables with distinct binaries", "why_tests_cant": "Alignment by index over tables of any shape.", "anchors": ["posydon/popsyn/transient_select_funcs.py:BBH_selection_function"]}
{"id": "C150", "title": "Detectability of mergers", "statement": "DCO_detectability refuses unknown sensitivities with ValueError.  A grid of fewer than ten points is refused likewise if any event has a redshift.  For positive masses and redshifts and a grid of at least ten probabilities it multiplies the weight of each event with a redshift by a probability that is between those of the grid, hence never increases it, equals that of the grid at its points and elsewhere is the mean over the ten nearest points weighted by inverse distance; weights of events without redshift stay.  Exception: the mass of star 1 is taken as that of the primary, so that the same merger with exchanged stars can have another probability.", "quantifier": "all populations, weights and grids", "why_tests_cant": "All grids and systems; symmetry under exchange of the stars.", "anchors": ["posydon/popsyn/transient_select_funcs.py:DCO_detectability", "posydon/popsyn/selection_effects.py:KNNmodel"]}
{"id": "C151", "title": "Columns of the post-processing", "statement": "If post_process_grid returns, its columns are those documented (state, values at helium depletion, common envelope and composition of each star, twelve quantities per star and supernova model, the mass-transfer history for binaries) and no others, each with exactly one value for every run processed; the directories returned are those of these runs, in order.  It fails only because of its argument index, or because one of the runs chosen does not exist or fails itself: the final test of completeness never fails.  Exception: for index=[a, b] with b negative and a not, directories of runs up to the b-th from the end are returned with empty columns.", "quantifier": "all grids, indices, sets of models and all outcomes of the functions computing states, envelopes and supernovae", "why_tests_cant": "Values are appended column by column in branches depending on classes, flags, stars and failures; alignment must hold in all of them.", "anchors": ["posydon/grids/post_processing.py:post_process_grid", "posydon/grids/post_processing.py:assign_core_collapse_quantities_none"]}
{"id": "C152", "title": "Which star collapses, and the values given for it", "statement": "In each row of post_process_grid at most one star has quantities of a collapse: of runs without mass transfer or with stable one, star 1 if star 2 is a compact object or the first flag names the primary, star 2 if it names the secondary, or at gamma_center_limit the first star with center_gamma of at least 10; and only if its state is one that collapses.  For each model its quantities are those of the remnant of the supernova step for the module's settings of that name, all of them None if the collapse fails or a quantity has an unexpected type; the class of the compact object is its state, or BH_reverse_MT for a black hole after mass transfer from both stars.  States, envelope quantities and compositions (0 for NaN) are those of the run's own stars, None for compact objects and classes without evolution.  Exceptions: settings given by the user are never used, a model with another name is computed with the default settings; one run whose mass transfers have no text in the legend (case_A1/B1/A1 before unstable mass transfer) makes the processing of the grid fail with KeyError.", "quantifier": "all grids, flags, stars, models and outcomes of the functions called", "why_tests_cant": "All combinations of flags, classes and failures.", "anchors": ["posydon/grids/post_processing.py:post_process_grid", "posydon/visualization/plot_defaults.py:DEFAULT_MARKERS_COLORS_LEGENDS", "posydon/grids/SN_MODELS.py:get_SN_MODEL"]}
{"id": "C153", "title": "Storing post-processed columns", "statement": "add_post_processed_quantities refuses with ValueError directories other than those of the grid.  Otherwise the final values keep all columns, those of the same name being replaced; texts are stored with at most 70 characters and None as 'None', numbers as floats and None as NaN; each model of the module with columns gets a dataset with exactly its columns under short names, and there are no other datasets.  Storing the same columns again changes nothing.  Exceptions: columns of models which are not in the module are dropped silently; lists of directories of different lengths are accepted if one has one element and the other consists of copies of it, or is empty.", "quantifier": "all files and columns", "why_tests_cant": "Columns are selected by substrings of their names, over all names.", "anchors": ["posydon/grids/post_processing.py:add_post_processed_quantities"]}
{"id": "C154", "title": "Strength of tides", "statement": "In a circular orbit tides change the spin of a star at Hut's rate for the larger of two dissipation rates: of turbulence in its convective region (eddies turning over in 0.431 (m dr r / 3L)^(1/3) years, tides with a period shorter than twice that being damped quadratically less; none if there is no such region) and of the dynamical tide (E2 from the size of the convective core and the composition of the surface if the core starts within a tenth of the radius and is not larger than the star, from the mass if not).  Both rates always exist and are unique; a region of which the thickness or radius is unknown or zero has no effect (at most 1e-99 per year).", "quantifier": "all separations, masses, radii, spins and structures with positive or missing values", "why_tests_cant": "Piecewise formulas over reals with several branches per star.", "anchors": ["posydon/binary_evol/DT/tides/default_tides.py:default_tides"]}
{"id": "C155", "title": "A new star", "statement": "A SingleStar keeps every property it is given, each with a history of that one entry, except that the state of a white dwarf, neutron star or black hole is inferred again from its mass and composition (a neutron star of 100 solar masses becomes a black hole, with the radius of a neutron star; a white dwarf of 1.2 solar masses of unknown composition becomes a neutron star).  What is not given about a star that is not a compact object follows from the state and the metallicity: abundances of hydrogen and helium at the centre which are positive and leave room for the metals, a logarithm of the radius of 4 for helium-burning giants and 0 otherwise, a helium core with the whole mass for stripped stars.  Everything else that is not given is NaN, but the core masses of compact objects are 0.  Further attributes are kept too, with a history of one entry unless they belong to the values a star has only once (kicks, supernova).  A kick given as a list of four is taken apart into speed and angles; shorter lists give an IndexError and other values a TypeError.  Construction fails with a KeyError exactly if the metallicity of such a star is not one of the tabulated ones, with a ValueError or TypeError for compact objects without a positive mass.", "quantifier": "all sets of keyword arguments without a property named *_history (and, for refusals, without a kick array)", "why_tests_cant": "Over sixty optional arguments, with defaults that depend on one another.", "anchors": ["posydon/binary_evol/singlestar.py:SingleStar.__init__"]}
{"id": "C156", "title": "A new binary", "statement": "A BinaryStar made of two stars keeps these stars and every property it is given, each with a history of one entry.  If both masses are known and exactly one of separation and period is given, the other is computed to satisfy Kepler's third law and stored together with its history; if none is given, or a mass is not a number, nothing is added; if both are given they are kept.", "quantifier": "all stars and all sets of keyword arguments without a property named *_history", "why_tests_cant": "Continuous masses and orbits, and every subset of the properties given.", "anchors": ["posydon/binary_evol/binarystar.py:BinaryStar.__init__"]}
{"id": "C157", "title": "A binary made from a run of a grid", "statement": "BinaryStar.from_run gives each property of the binary and of its stars the final value of the corresponding column of the run, and as history that column if histories are asked for, else that one value; properties without a column are None throughout; all of these histories have as many entries as the history of the binary.  The masses and mass-loss rates of the stars are taken from the history of the binary, the metallicity is the Z of the run at every step, the eccentricity is zero, values at helium depletion go to the star they are marked with.  Each state of the binary is determined knowing all the states before it, and the current ones are the last.  Exception: a star without a history of its own, i.e. a compact object, keeps the values of an unevolved default star with histories of one entry, except for those taken from the binary; its state follows from its mass alone.  Without a history of the binary a default binary is returned.", "quantifier": "all runs, flags and ways to determine states", "why_tests_cant": "Any set of columns, any number of steps; the relation between dozens of histories.", "anchors": ["posydon/binary_evol/binarystar.py:BinaryStar.from_run"]}
{"id": "C158", "title": "A single star made from a run of a grid", "statement": "SingleStar.from_run gives each property the final value of its column and as history that column, or that value if histories are not asked for; properties without a column are None; all histories have as many entries as steps.  The metallicity is the Z of the run, though its history consists of None; a profile, if asked for, is the last entry of its history.", "quantifier": "all runs, flags and ways to determine states", "why_tests_cant": "Any set of columns and any number of steps.", "anchors": ["posydon/binary_evol/singlestar.py:SingleStar.from_run"]}
{"id": "C159", "title": "Cores of a star for several definitions of their boundary", "statement": "For a hydrogen-rich star the cores stored for boundaries at 1, 10 and 30 per cent of hydrogen are nested in mass and in radius and lie inside the star; each is the whole star, nothing, or ends inside the first shell (from the surface) in which hydrogen falls to the threshold.  For a stripped star all three are the whole star and have no lambda; for other stars, and for stars without a profile, nothing is known.", "quantifier": "all profiles whose masses and radii decrease inwards and whose abundances add up to one; all states", "why_tests_cant": "Profiles of any length and composition.", "anchors": ["posydon/utils/common_functions.py:CEE_parameters_from_core_abundance_thresholds"]}
{"id": "C160", "title": "Scripts of population jobs and of their rescues", "statement": "The script of a job array for a metallicity runs exactly the ranks 0..n-1 of n, under the given settings, and the number of batches expected is read back as n.  A rescue script made from it runs exactly the missing ranks, each with the same rank and the same total as in the original array, with every setting taken from the arguments if given there and else from the original script.  The scripts for submission submit each array (rescue) once, followed by its merge, which waits for exactly that array (rescue).  Values which contain an equals sign are cut when read back, so a path with one is lost.", "quantifier": "all numbers of jobs, settings, paths, sets of missing batches and lists of metallicities", "why_tests_cant": "Scripts for all numbers of jobs and missing sets; the scripts run only on a cluster.", "anchors": ["posydon/CLI/io.py:create_slurm_array", "posydon/CLI/io.py:create_slurm_rescue", "posydon/CLI/io.py:create_batch_rescue_script", "posydon/CLI/io.py:create_bash_submit_script", "posydon/CLI/io.py:create_bash_submit_rescue_script"]}
{"id": "C161", "title": "Which batches of a population run are missing", "statement": "When the folder of batches of a metallicity holds only batch files with indices below the expected number, it is reported complete exactly when each of them is there, and else as incomplete with exactly the indices which are not, in order, and without asking anything (if the logs are of one array).  A batch file of an earlier, larger run makes a folder with a missing batch count as complete; the log of a merge in the folder of logs makes the check of an incomplete metallicity fail.", "quantifier": "all contents of the folders, all expected numbers", "why_tests_cant": "Arbitrary sets of files; tests use a handful.", "anchors": ["posydon/CLI/popsyn/check.py:find_missing_batch_indices", "posydon/CLI/popsyn/check.py:check_batch", "posydon/CLI/popsyn/check.py:get_expected_batch_count", "posydon/CLI/popsyn/check.py:select_job_id"]}
{"id": "C162", "title": "What checking a population run leads to", "statement": "If all populations are there with the requested number of binaries the check returns 0 and does nothing.  If all missing populations have all batches, the merges of exactly these are submitted if the user agrees.  If a folder of batches is missing, it returns 1 and does nothing.  If all missing populations are incomplete, on agreement a rescue with exactly the missing jobs is written for each, and a script which submits each of them followed by its merge, and on a second agreement that script is run.  If populations are all there with another number of binaries nothing is done, whatever the answer; if some missing populations are complete and others are not, the rescue fails.", "quantifier": "all runs with distinct supported metallicities, all contents of their folders, all answers of the user", "why_tests_cant": "Depends on all contents of the run's folders and all answers.", "anchors": ["posydon/CLI/popsyn/check.py:check_popsyn_function", "posydon/CLI/popsyn/check.py:handle_batches_complete", "posydon/CLI/popsyn/check.py:check_run_status", "posydon/CLI/popsyn/check.py:check_population_files", "posydon/CLI/popsyn/check.py:check_binary_counts"]}
{"id": "C163", "title": "Stars and binary after an interpolated step", "statement": "After a step with an initial-final interpolator, each property of a star which is no compact object is the interpolated value of the column for that star and property, except its metallicity, which is kept, and its profile and average core carbon abundance, which are cleared.  Its state is that inferred from the updated star, but kept if the class is initial_MT.  Each property of the binary is the interpolated value of its column, but its time advances by the interpolated age, its eccentricity and systemic velocity are the last recorded ones and its state, event, and mass-transfer case are those inferred from the updated stars and the class.  The class and the history of mass transfer are recorded under the grid's name.  All else but the cores and core collapses (C165) is kept.", "quantifier": "all binaries, stars, interpolated values and classes, for which the step succeeds", "why_tests_cant": "All values of some hundred columns; the loaded grids are not at hand in tests.", "anchors": ["posydon/binary_evol/MESA/step_mesa.py:initial_final_interpolation"]}
{"id": "C164", "title": "Compact objects after an interpolated step", "statement": "A compact object takes its mass and rates from the interpolation, its radius from that mass, its spin from its own spin and mass and the mass after the step, and its rate is the smaller of the Eddington limit and the interpolated rate plus what it captures of the companion's wind, unless the binary started in overflow.  All its other properties are kept.  A white dwarf above 1.1 solar masses gets the radius of a neutron star; a compact object which the interpolation makes lighter gets no (NaN) spin.", "quantifier": "all compact objects, companions, and interpolated values", "why_tests_cant": "Continuous inputs; interpolation errors decide the finding.", "anchors": ["posydon/binary_evol/MESA/step_mesa.py:initial_final_interpolation"]}
{"id": "C165", "title": "Cores and core collapses after an interpolated step", "statement": "Unless the binary starts in overflow, the quantities of the core of a star at its end are those interpolated, those at helium depletion are cleared after unstable mass transfer.  For each model of core collapse, the record of a star is none for compact objects and if no compact object is classified, and else holds the classified types and all interpolated quantities (or none, if one is not there).  After unstable mass transfer or initial overflow the records of core collapse are those from before the step.", "quantifier": "all stars, models of core collapse, interpolated values and classes", "why_tests_cant": "All combinations of columns which are there and classes.", "anchors": ["posydon/binary_evol/MESA/step_mesa.py:initial_final_interpolation"]}
{"id": "C166", "title": "Setting up a step with a grid", "statement": "A step with a grid can be set up exactly if all its options are known, tracks are followed only with the nearest neighbour, and stopping other than at the largest time is asked for only with the nearest neighbour.  It can then be taken exactly if its method is the nearest neighbour or one of the three interpolators linear_kNN, linear3c_kNN, 1NN_1NN.  The names of methods in the documentation are accepted when setting up, and fail at the first binary.", "quantifier": "all options", "why_tests_cant": "All combinations of options; loading a grid is not possible in tests.", "anchors": ["posydon/binary_evol/MESA/step_mesa.py:MesaGridStep.__init__", "posydon/binary_evol/MESA/step_mesa.py:MesaGridStep.__call__"]}
{"id": "C167", "title": "Which files of MESA runs are selected", "statement": "For any directory, the files listed for removal are exactly those called core, or core with one extension, in directories whose path contains _grid_index_; the files listed for compression are exactly the others with extension .data, .mod, or .txt in such directories.  The numbers are those of the listed files and the size is the sum of the sizes of all regular files.", "quantifier": "all directory trees and file names", "why_tests_cant": "All names and trees; a wrong selection deletes data.", "anchors": ["posydon/utils/compress_mesa_files.py:get_size"]}
{"id": "C168", "title": "What a compression of MESA runs leaves", "statement": "If the selected files are regular, no text has a compression beside it, and no selected path has a space, the compression removes exactly the core dumps in runs, replaces exactly the texts in runs by their compressions with .gz added to the name, changes nothing else, and reports the sizes before and after and nothing left.  No other content is lost.  Files below a path with a space are left, core.data is removed as a dump, a dangling link raises UnboundLocalError.", "quantifier": "all directory trees", "why_tests_cant": "All trees; the loss of data cannot be excluded by examples.", "anchors": ["posydon/utils/compress_mesa_files.py:compress_dir"]}
{"id": "C169", "title": "Sizes for people", "statement": "textsize works exactly for base 1000 or 1024 and thresholds above 0 up to the base.  It then gives quantity and unit with sign times quantity times base^i equal to the size for the i-th unit, quantity below the threshold, and no smaller unit possible; sizes too large for all units are given in bytes.  With the default threshold quantities may be rounded to 1e+03.", "quantifier": "all sizes, bases, thresholds", "why_tests_cant": "Continuous inputs.", "anchors": ["posydon/utils/compress_mesa_files.py:textsize"]}
{"id": "C170", "title": "Primary equivalent evolutionary phases of a track", "statement": "Each primary EEP of a track is the first row which meets its condition after the preceding phase (ZAMS, IAMS, TAMS, TACHEB, TPAGB, PAGB, WDCS, CBURN), or the row with the extreme helium luminosity or central temperature among those not yet burnt (TRGB, ZACHEB); IAMS is not after TAMS, TRGB is after TAMS, TACHEB and CBURN are after ZACHEB.  A track which ends at TAMS raises IndexError, whichever EEPs are asked for.", "quantifier": "all tracks", "why_tests_cant": "All tracks; loops over rows with extrema.", "anchors": ["posydon/interpolation/eep.py:EEP.__init__", "posydon/interpolation/eep.py:EEP._TRGB", "posydon/interpolation/eep.py:EEP._ZACHEB", "posydon/interpolation/eep.py:EEP._PAGB"]}
{"id": "C171", "title": "The table of equivalent evolutionary phases", "statement": "With k of the wanted EEPs found, the table has k + n(k-1) rows, those at multiples of n+1 are the rows of the track at the found EEPs, and the n rows between two have in each column the monotone cubic of that column over the metric, at points equally spaced in the metric.  The metric never decreases and grows by the weighted squares of the steps.  The cubic uses the rows from the first EEP to before the second only, so the last points are extrapolated; EEPs out of order or next to each other, or none at all, raise ValueError.", "quantifier": "all tracks, wanted EEPs, numbers of points", "why_tests_cant": "All tracks and positions.", "anchors": ["posydon/interpolation/eep.py:EEP.__init__", "posydon/interpolation/eep.py:EEP._metric_function"]}
{"id": "C172", "title": "The first guess of a match is the closest point of the grid", "statement": "For any grid with at least one row, any star, and quantities stored for the guess, get_root0 returns initial mass and age of the row of a track whose rescaled distance to the star is least of all rows of all tracks; the first such row in order of mass and age.  The rows added to make tracks equally long are never taken.  If a value of the star is NaN, the first row of the first track is returned.  Without rescaling factors, the documented default, there is always an error.", "quantifier": "all grids, stars, lists of quantities and factors", "why_tests_cant": "A minimum over all rows of all grids.", "anchors": ["posydon/binary_evol/track_match.py:TrackMatcher.get_root0", "posydon/binary_evol/track_match.py:TrackMatcher.create_root0_h", "posydon/binary_evol/track_match.py:TrackMatcher.create_root0_he"]}
{"id": "C173", "title": "What is tried to match a star", "statement": "The optimiser is asked, in order and up to where it stops, for the default quantities of the kind of the star with TNC and with Powell, the alternative quantities with TNC, all in the grid of the star, and for stars off the main sequence the default quantities with TNC in the other grid.  Compact objects, massless remnants and unknown states are refused with ValueError; quantities that are not stored for the guess with AttributeError.  With the default lists the first three attempts keep to the masses of the grid searched and the last to the masses of the grid not searched; for stars that burn accreted helium it is the other way round.  For stripped stars the third attempt repeats the first.", "quantifier": "all states, lists, grids, optimisers", "why_tests_cant": "All optimisers and states.", "anchors": ["posydon/binary_evol/track_match.py:TrackMatcher.match_through_minimize", "posydon/binary_evol/track_match.py:TrackMatcher.__init__", "posydon/binary_evol/flow_chart.py:STAR_STATES_FOR_HMS_MATCHING"]}
{"id": "C174", "title": "Which match is accepted", "statement": "If the first attempt whose optimiser succeeds within the tolerance comes before any error, its solution is taken and the star goes to the grid of that attempt.  Without such an attempt and without errors, the solution of the successful attempt with the least function, the first of equals, is taken if it is within the hard tolerance, and otherwise there is none.  An error before an attempt within the tolerance raises NumericalError, even if a solution within the hard tolerance was found before.  With the root method, the solution is taken exactly if the solver succeeded and the age is not negative.", "quantifier": "all states, lists, tolerances, optimisers", "why_tests_cant": "All sequences of outcomes of a numerical optimiser.", "anchors": ["posydon/binary_evol/track_match.py:TrackMatcher.match_through_minimize", "posydon/binary_evol/track_match.py:TrackMatcher.match_through_root"]}
{"id": "C175", "title": "The track of a match has increasing ages", "statement": "Of the rows of a track exactly those are used which are younger than all later rows; so the ages increase, a track with increasing ages is used whole, and the last row is always used.  The end of the track is the greatest age of all rows, which may be later than every row used.", "quantifier": "all tracks", "why_tests_cant": "A loop until nothing changes, over all tracks.", "anchors": ["posydon/binary_evol/track_match.py:TrackMatcher.get_star_match_data"]}
{"id": "C176", "title": "Matching of a binary", "statement": "A binary is matched exactly if each of its stars is: at birth with the track of its own mass at age zero, otherwise with the track found, and with that mass in the range of the grid the star is in then.  A compact object or massless remnant takes mass and age of the track of its companion; if there is no star, mass and time of the secondary are taken.  Exactly the stars are recorded as matched, and the event is Match12, Match1, Match2, or stays.  Matching only the primary raises UnboundLocalError if it is no star.", "quantifier": "all pairs of states, masses, grids, results of the match", "why_tests_cant": "All pairs of states and all results.", "anchors": ["posydon/binary_evol/track_match.py:TrackMatcher.do_matching", "posydon/binary_evol/track_match.py:TrackMatcher.get_star_match_data"]}
{"id": "C177", "title": "Processes of a population run draw different random numbers", "statement": "Without an entropy, the task of rank r of a job array for the k-th of different metallicities draws from stream r of the seed JOB_ID + k.  So no two tasks of a run share their random numbers, if job numbers increase in the order of the metallicities; and no two jobs of one metallicity do, rescues included.  A rescue of one metallicity may share them with the array of another.  With an entropy, MPI processes of different metallicity or rank differ, but tasks of equal rank of job arrays share theirs for all metallicities.  MPI together with a job array, MPI without an entropy, a metallicity not in the list and negative entropies are refused with ValueError; a rank beyond the size with IndexError.", "quantifier": "all lists of metallicities, job numbers, sizes, ranks, entropies", "why_tests_cant": "Pairs of processes of all runs.", "anchors": ["posydon/popsyn/binarypopulation.py:BinaryPopulation.__init__"]}
{"id": "C178", "title": "The steps of a population have its metallicity", "statement": "A population has the metallicity asked for, or else the one at the index in its list.  The first population to evolve with its SimulationProperties evolves with all steps that load grids at its own metallicity and with its own random numbers, whichever populations were made before; other steps are unchanged.  Once loaded, steps keep metallicity and random numbers, also for other populations with the same SimulationProperties, whose max_simulation_time is that of the population made last.", "quantifier": "all populations, steps, orders of creation and evolution", "why_tests_cant": "All sequences of populations sharing an object.", "anchors": ["posydon/popsyn/binarypopulation.py:BinaryPopulation.__init__", "posydon/popsyn/binarypopulation.py:BinaryPopulation._safe_evolve"]}
{"id": "C179", "title": "Setting up a population run", "statement": "After posydon-popsyn setup without an error, there is for each metallicity the script of an array of exactly j jobs with the options given, its directory of logs, and the script which merges; slurm_submit.sh submits them, each merge waiting for its array.  The j jobs share the binaries: each is evolved by exactly one job, and each job has at least one.  The scripts read the file of parameters that was checked if its name has no quotes or backslashes.  Nothing is written if the file is missing, its supernova model is not one with interpolated values, or there are fewer binaries than jobs.  An unsupported metallicity is refused only after files were written, but never with a slurm_submit.sh.", "quantifier": "all files of parameters, metallicities, numbers of binaries and jobs, options of one line", "why_tests_cant": "All numbers of binaries and jobs, and all names.", "anchors": ["posydon/CLI/popsyn/setup.py:setup_popsyn_function", "posydon/CLI/popsyn/setup.py:validate_ini_file", "posydon/CLI/io.py:create_python_scripts", "posydon/CLI/io.py:create_slurm_scripts", "posydon/CLI/io.py:create_bash_submit_script"]}
{"id": "C180", "title": "Subsets of a population file are complete", "statement": "For a selector that looks at rows one by one, get_subsets returns all rows, in order, of both tables for a set of different binaries which have a selected row: all of them, or if find_n is given at most that many, and fewer only if there are no more; if the file has one line per binary and its history together and of at most 1000 rows.  Without a selector both tables are returned whole, whatever find_n; two selectors are refused.  Columns are those containing a pattern.", "quantifier": "all tables, selectors, find_n, orders of sets, patterns", "why_tests_cant": "Loops over parts of tables of any size that end early.", "anchors": ["posydon/popsyn/analysis.py:get_subsets", "posydon/popsyn/analysis.py:_decide_chunksize", "posydon/popsyn/analysis.py:_filter_columns"]}
{"id": "C181", "title": "The file of runs to run again", "statement": "PSyGrid.rerun writes a grid.csv with one row for each run asked for: those given, and those with one of the termination flags in a column to be checked; each index once, the given ones first, in the order in which they were first named.  A row has the masses, the period and the metallicity of its run to within 5e-11, and the same value of each new option; all columns are equally long.  It is written exactly if runs or flags are given with valid types, a grid with metallicities has runs, and all runs asked for exist.  Negative indices count from the end, so a run may come twice; a new option named like a column replaces it; a list given together with flags is extended for the caller; and a grid without any of the columns gives a file without rows.", "quantifier": "all grids, lists of runs, flags, columns to check and new options", "why_tests_cant": "All grids and all combinations of lists with duplicates.", "anchors": ["posydon/grids/psygrid.py:PSyGrid.rerun"]}
{"id": "C182", "title": "The pipeline runs again what a rerun is for", "statement": "For each kind of rerun, the grid.csv has exactly one row for each run which the kind is for, in the order of the grid, and the options of that kind: by termination_flag_1, by texts in the log of the run, by the initial helium, or by its histories (reverse mass transfer with fast rotation, TPAGB stars, luminous blue variables without a TPAGB phase).  No run is chosen by both LBV_wind and TPAGBwind.  Kinds by logs fail exactly if a directory is missing; those by histories exactly if histories of a run have different numbers of rows (unless one row) or none.  All other kinds, envelope_mass_limit included, are refused with ValueError.", "quantifier": "all grids, histories, logs and kinds of rerun", "why_tests_cant": "All histories and logs of all runs.", "anchors": ["bin/posydon-run-pipeline:logic_rerun", "bin/posydon-run-pipeline:rerun", "posydon/visualization/combine_TF.py:TF1_POOL_ERROR"]}
{"id": "C183", "title": "What is read from a template of MESA", "statement": "clean_inlist_file takes every line of an inlist, without the comment after the first exclamation mark and the blanks around, as nothing, as the header of a section (if there is an ampersand anywhere in it), or as an assignment cut at the first equals sign.  With at least one header, the keys of the result are just the headers, and the value of a parameter in a section is the last one given in any section of that header which is neither '' nor '.'.  It fails, with UnboundLocalError, just if such a value is given before the first header.  Without a header there is one section, named by the keyword.  An assignment of '' does not take back an earlier value, and quotes are not respected: an ampersand in a quoted text starts a section and an exclamation mark in a quoted text cuts it.", "quantifier": "All files (lists of ASCII lines) and section keywords; all sections, parameters and values.", "why_tests_cant": "Files are arbitrary texts; tests read a handful of inlists and cannot show which assignment wins for every order of sections, comments and repeated keys.", "anchors": ["posydon/utils/gridutils.py:436-484"]}
{"id": "C184", "title": "Which values of a grid point reach MESA", "statement": "When posydon-run-grid runs a point of a fixed grid, the binary is run with the binary executable and template of the command line, and the files of parameters hold just the values of the chosen row whose column the template of that list (controls or job of the binary, of star 1, of star 2) gives a value to: each in the file and list of its template, whole numbers as integers, other numbers in scientific notation, truth values as logicals.  Nothing written for the formation of the stars is left in them.  A column which no template knows, or to which the template gives an empty text, is ignored without notice, and a text value stops the program before any run.", "quantifier": "All templates (arbitrary files), command lines, tables and rows, counted from either end.", "why_tests_cant": "Which value goes where depends on the contents of three templates and the table; MESA would have to be run to see it, and no test can cover all combinations.", "anchors": ["bin/posydon-run-grid:222-385", "bin/posydon-run-grid:845-877", "bin/posydon-run-grid:961-978"]}
{"id": "C185", "title": "The steps that form the stars of a binary", "statement": "When a point of a fixed grid of binaries is run to the end, the runs of MESA are one for each template of the formation of star 1 in order, then of star 2, then the binary; a star is formed if its executable is given and none of its templates is \"None\".  Each step has the mass of its star from the row, and from the second step on also the metallicity, as a new one.  The first two steps use their own template, but every later step runs the second template again.  Profiles and photos of these steps are removed even if they are to be kept, and the working directory is copied.  If the mass is no parameter of the point the program stops with a KeyError before any run; if the metallicity is not, it does so after the first step.", "quantifier": "All command lines with any number of steps, tables, rows and templates.", "why_tests_cant": "The number of steps is arbitrary and each runs MESA; tests do not run it.", "anchors": ["bin/posydon-run-grid:387-441", "bin/posydon-run-grid:736-783"]}
{"id": "C186", "title": "The steps of a grid of single stars", "statement": "With the formation of star 1 asked for and no column of the grid a parameter of the binary, posydon-run-grid runs only that star: one run for each template in order, each with its own template and the initial mass of the row.  The metallicity is given in the second and in the last step; it is a new one in the second step unless that is the last.  Profiles and photos are kept as asked, and the output of all steps but the last is copied, that of the last is moved.", "quantifier": "All command lines with any number of steps, tables, rows and templates.", "why_tests_cant": "The number of steps is arbitrary and each runs MESA; tests do not run it.", "anchors": ["bin/posydon-run-grid:880-923"]}
{"id": "C187", "title": "When a fixed grid runs nothing", "statement": "A fixed grid without an index of the point never runs MESA and, unless it is a grid of single stars, ends as if all were well.  An index outside the table, from either end, gives an IndexError without a run.  If the templates of a star are not given on the command line, although the option is not required, the program ends with a TypeError.", "quantifier": "All command lines, tables and templates.", "why_tests_cant": "These are statements that nothing happens, for all tables and command lines.", "anchors": ["bin/posydon-run-grid:804-819", "bin/posydon-run-grid:961-991"]}
{"id": "C188", "title": "What a dynamic grid does with the points it proposes", "statement": "In every execution of a dynamic grid of MESA by any number of processes: while the root process has not failed, each point it has sent is either recorded in the grid or in the hands of exactly one child process, no more than Niter results are recorded, and grid_results.csv, once written, is the grid that was loaded followed by all results in the order they came.  When the root has finished, just Niter results are recorded, but one more point is with each of the other processes: these are run to the end but never recorded, and the processes then wait for ever.  With a single process the root waits for ever.  One failed run, or any run with a version of pandas which the project allows, ends the root with a ValueError at the first result, after which nothing is recorded.", "quantifier": "All numbers of processes and iterations, all proposals, all results, and all interleavings of the processes.", "why_tests_cant": "The order in which processes finish is not determined; the claim is about all of them and about states that never end.", "anchors": ["bin/posydon-run-grid:620-735", "bin/posydon-run-grid:988-1000", "pyproject.toml:48"]}
{"id": "C189", "title": "Which stars of a population have gamma-ray bursts, and with what energies", "statement": "get_GRB_properties gives every star whose radiated disk mass is not a positive number no burst and no energy; every other star has the efficiency given, the energy efficiency times the rest energy of that mass, this divided by its factor of beaming as isotropic energy, a 25th of it as luminosity, and counts as a burst just when the isotropic energy reaches the threshold.  The factor of beaming is the number given, or the next random one for the next star with a disk (Goldstein+15), or 1.75e48 erg / (efficiency x energy) (Pescalli+15), in which the efficiency enters twice and which exceeds 1 for small energies.  It is refused just when a column is missing, the efficiency is no float or outside 0 to 1, or the beaming is neither a float nor one of the two names; NaN as efficiency is not refused and then there are no bursts.  With the default threshold stars which radiate nothing count as bursts.", "quantifier": "All populations, efficiencies, factors of beaming, thresholds and random draws, with exact arithmetic.", "why_tests_cant": "The file is left out of the unit tests; the claims are about all tables and all random draws.", "anchors": ["posydon/popsyn/GRB.py:14-132"]}
{"id": "C190", "title": "When two runs of the test binaries count as identical", "statement": "compare_runs.py ends with status 0 (\"IDENTICAL\") just when: both files have an evolution table with numbers of binaries; a binary in only one of them has an error in the other; each binary in both has as many rows, the same columns, and row by row the same numbers within the tolerances (both NaN counts as the same; without tolerances exactly the same) and the same texts; the warnings of each binary have the same categories and the same messages as often; the same binaries have errors, the first error of each being the same; and the same other tables exist.  So a file is identical to itself.  But identical runs may differ in: binaries with an error in both runs, None and the text \"None\", which message has which category, the second and later errors of a binary, the order of the binaries, and the contents of all other tables.", "quantifier": "All pairs of files and all tolerances.", "why_tests_cant": "A comparison is trusted for all pairs of files; tests show only some pairs, and false verdicts of identity are the ones nobody looks at.", "anchors": ["dev-tools/script_data/src/compare_runs.py:33-307", "dev-tools/script_data/src/compare_runs.py:310-497"]}
{"id": "C191", "title": "How many binaries of a population have the same evolution", "statement": "For a population whose rows of each binary follow each other, and whose different evolutions (values of the read columns, row by row) have different hashes, ParseDataFrame's count_dict has one entry for each evolution, under the number of a binary with that evolution, whose value is the number of binaries with that evolution; the values add up to the number of binaries, and the frequencies to 100.  This holds for every size of chunks, also if a binary is cut by the end of one or of several chunks, so two sizes give the same numbers.  A table without rows ends with an IndexError.  If the rows of a binary are apart, it may be counted several times, or other binaries may be lost, depending on the size of the chunks.", "quantifier": "All tables, all ways to cut them into chunks, and all hash functions.", "why_tests_cant": "Populations have millions of rows, and the chunks cut them anywhere; tests read small files in a single chunk.", "anchors": ["posydon/visualization/VH_diagram/ParseDataFrame.py:15-76"]}
{"id": "C192", "title": "What the submitted jobs of the pipeline wait for", "statement": "If posydon-setup-pipeline writes its script, the script submits exactly: each step switched on, waiting for the success of the last step switched on before it (the first waits for nothing); after step_2, step_F and rerun a cleanup, waiting for its step; for each step with plots (checks) left after the replacement of sets, and if MAKE_PLOTS (MAKE_CHECKS) is not off, a job for them that waits for the step, or, if the step is off, for the last step switched on before it or for nothing, and its cleanup.  A final cleanup of the pipeline waits for the end of all jobs.  No name is submitted twice, and each job waits only for jobs submitted before it.  The plots and checks of a step are those listed by name and those of the listed sets (if no set is listed twice).  A step without a list for one of the four attributes takes it from the last step switched on, else KeyError.  All seven sections must exist, also those of steps switched off; with nothing to do the end is an UnboundLocalError.", "quantifier": "All ini files, all supernova models and all outcomes of the making of single jobs.", "why_tests_cant": "Which of the 2^21 combinations of steps, plots and checks are used is up to the user, and a wrong dependency shows only on a cluster.", "anchors": ["bin/posydon-setup-pipeline:54-124", "bin/posydon-setup-pipeline:187-483", "bin/posydon-setup-pipeline:1283-1286"]}
{"id": "C193", "title": "The tasks of the steps of the pipeline", "statement": "The csv file of step 1 (3, 4) has exactly one task for each grid type, each of its metallicities, slices and compressions (and each interpolation method), with the paths built from these; step 3 reads the grid of the same slice with the first original compression (else ORIGINAL), with _RLO just if the compression has it, and makes the grid ..._processed.h5 beside the grid read.  Each task of step 5 reads an interpolator that step 4 makes from the same grid; the plots of step 4 (5) read interpolators which step 4 (5) makes.  With DROP_MISSING_FILES the tasks left, in their order, are those for which all files read exist or are made by an earlier step; without it all are left; the files made are those of the tasks left.  No task is a ValueError, and the array of jobs has one job for each row.  But the checks of step 4 read the profile interpolators and those of step 5 the initial-final ones; and the tasks of step 4 for two slices of a type make the same file.", "quantifier": "All arguments of create_csv, all files there, all lists of files made before.", "why_tests_cant": "The lists of types, metallicities, slices, compressions and methods multiply, and whether a later step finds what an earlier one makes is a relation between whole tables.", "anchors": ["bin/posydon-setup-pipeline:649-1240", "bin/posydon-setup-pipeline:603-615"]}
{"id": "C194", "title": "The tasks of combining grid slices", "statement": "The csv file of step 2 has exactly one column for each grid type, each of its metallicities, batches and compressions: named by the combined grid of the batch and holding the grids of the slices of the batch, in their order.  There is a ValueError just if the lists differ in length from the list of types or a type with a task has not as many names as batches.  With DROP_MISSING_FILES a column keeps exactly the slices which exist or are made by earlier steps, and columns without any are left out; the files the step makes are the names of the columns.  If PATH_TO_GRIDS is in normal form (os.path.normpath), every slice which is also one of step 1 is a file that step 1 makes, so none is dropped.  For other values of PATH_TO_GRIDS, e.g. '.', the slices made by step 1 are dropped.", "quantifier": "All arguments of create_csv, all files there, all lists of files made before.", "why_tests_cant": "Whether step 2 finds what step 1 makes relates whole tables of two steps through paths which are built in two different ways.", "anchors": ["bin/posydon-setup-pipeline:734-747", "bin/posydon-setup-pipeline:799-856", "bin/posydon-setup-pipeline:1189-1240", "posydon/utils/gridutils.py:486-511"]}
{"id": "C195", "title": "The inlists of a grid of binaries", "statement": "For a grid of binaries, each section of the inlists written by posydon-setup-grid has for a parameter that the tool does not set itself the value of the last file of the section, in the order of the ini file, which sets it; parameters which make MESA read further inlists are not taken from any file, and the placeholder num_x_ctrls becomes 1 in the controls of a star.  The inlist of a star reads the inlist of the grid point just if a parameter of the grid is one of its own.  Profiles, models, histories and the precomputed model follow the options whatever the files say.  A star is formed just if there is no precomputed model and a key of its formation is set, in as many steps as the longest list has files; step n uses the files with number n, each step loads the model the step before saves, and the binary loads the model of the last step.  Lists of different lengths are an IndexError.", "quantifier": "All ini files, contents of inlists, options and grid parameters; both stars.", "why_tests_cant": "The result depends on any number of files layered over each other, and the chain of saved and loaded models on any number of steps.", "anchors": ["bin/posydon-setup-grid:379-866"]}
{"id": "C196", "title": "The call of posydon-run-grid", "statement": "What posydon-setup-grid writes on the command line, posydon-run-grid reads: if no argument has blanks or begins with '-', the grid, the executables, inlists, column lists, output directory, grid type, inifile of psycris and the flags come back as they were, and the inlists of the formation of a star come back as the list of the steps, or as None if there is none; so run-grid forms a star just if setup-grid has made inlists for it.  Grid types other than fixed and dynamic are a ValueError.  A dynamic grid without an inifile of psycris is not refused, since None arrives as a text; and a call of run-grid without the optional inlists of a star ends in a TypeError.", "quantifier": "All arguments of the call without blanks that do not begin with '-'.", "why_tests_cant": "Writing and reading are in two programs, with lists of any length in the middle of the line.", "anchors": ["bin/posydon-setup-grid:934-978", "bin/posydon-run-grid:33-148", "bin/posydon-run-grid:801-819"]}
