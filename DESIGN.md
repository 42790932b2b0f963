# Formal model of POSYDON in Rocq

Source under study: `/repo` (POSYDON at the pinned commit), read as text.
Everything lives in `rocq/theories/` (logical root `Verif`), Coq 8.16.1.

## Layout

* `Py*.v` — shared vocabulary: exceptions as values, Python list/slice/dict semantics, strings.
* `*Model.v` — Gallina transcription of repository functions.  Every definition
  cites file and lines and states the simplifications made.
* `*Spec.v` — small independent specifications (no use of the model's helpers).
* `*Proofs.v` — lemmas.
* `*Props.v` — the property theorems (one-line proofs by the lemmas), a concrete
  `Example` beside each, and `Print Assumptions`.

## Conventions

* Python exceptions are values (`result A := Ok a | Raise e`).
* Python floats are modelled by reals `R` (or an arbitrary ordered carrier / `Q` / `Z`
  where only comparisons or exact arithmetic matter); NaN/None are modelled
  explicitly with `option` where the code tests for them.  Rounding is not modelled
  unless said otherwise.
* Random generators are universally quantified streams.
* User-supplied functions (steps, hooks, densities, CDFs) are universally quantified.
* Loops that need not terminate are modelled as relations or with fuel, with the
  theorem quantified over all fuel.
* A claim which is false of the code gets a theorem `…_refuted` with a concrete witness,
  next to the strongest true version.

## Trusted base

* Coq's kernel (and `vm_compute`), the statement of the specifications, and the
  faithfulness of the `*Model.v` transcription.
* Axioms: only those of the Coq standard library; each property file prints them.
  Discrete theorems are closed under the global context; theorems about reals use the
  standard library's real-number axioms (`ClassicalDedekindReals.sig_forall_dec`,
  `sig_not_dec`, `functional_extensionality_dep`, and `Classical_Prop.classic` through Coquelicot).

## Plan per property (before proofs)

| id | model | how |
|----|-------|-----|
| C01–C05 | `FlowChart*`: every loop of flow_chart.py as a list of assignments; dictionary = last assignment wins | full equality with an independent rule table, by reflection over the finite vocabulary plus a lemma for unknown names |
| C06–C12 | `Binary*`: binary = current record + histories; steps/hooks arbitrary functions; evolve as bounded loop with alarm flag and call log | induction over runs and operation sequences |
| C13–C16 | `MTCase*`, `StarState*` | list induction; case analysis over option-valued numbers |
| C17, C18, C38–C40, C45, C48 | `Physics*`, `Dist*` over R | real analysis (Coquelicot for integrals) |
| C19 | `Samplers*` with a random stream | fuel induction |
| C20–C25 | `Population*`: array_split, batching state machine with failure schedule, file store | induction over populations |
| C26–C29 | `Sampling*` | list/stream reasoning, modular arithmetic; arrays in a heap for aliasing |
| C30–C35 | `SynPop*`: tables as lists of indexed rows, chunked readers | induction over chunks |
| C36, C37 | `Bins*` | telescoping sums |
| C41, C42 | `IoNames*` with real strings | computation and induction |
| C43 | `Warnings*` state machine | induction over operation sequences |
| C44, C46, C47, C49, C50 | small state machines | induction |

## Results per area

### Flow chart (C01–C05): `FlowChartModel/Spec/Rules/Proofs/Props.v`
Modelled: every list and loop of `posydon/binary_evol/flow_chart.py`, `flow_chart()` and
`initial_eccentricity_flow_chart()` with dictionaries in a heap (so that in-place mutation of the caller's
chart is visible).  Names outside the vocabulary are the constructors `SOther/BOther/EOther`.
Not modelled: the import of user charts from ini files.
Assumptions: none.  Findings: contact common envelopes depend on the star labels; changes for keys the chart
lacks are dropped silently; the caller's chart is mutated; two H-rich stars in (RLO1, oRLO1) have no entry.

### Binary bookkeeping (C06–C12): `BinaryModel/BinarySpec/EvolveProofs/HistoryProofs/HookProofs/BinaryProps.v`
Modelled: `BinaryStar.__init__` (property/history part), `evolve`, `run_step`, `get_next_step_name`, `append_state`,
`switch_star`, `check_who_exists`, `restore`; `SingleStar.append_state/restore`; the hook dispatch of
`SimulationProperties` and the two built-in hooks; `flip_stars`, `set_binary_to_failed`.  Values are
None/strings/integers/objects; steps, hooks, extra functions and clocks are arbitrary functions that may raise.
Not modelled: the physics inside steps, printing, the SIGALRM handler interrupting evolve() between two of its
own statements, the derivation of separation/period in the constructor.
Assumptions: none.  Findings: restore(-1) empties histories; restore with a missing hook column fails half-way;
the shortening branch of TimingHooks/StepNamesHooks is off by one; flip_stars forgets
oDoubleCE*/oMerging*/Match*, after which a binary may have no next step.

### Mass-transfer cases and star states (C13–C16): `PyNum/PyStr/PyList/MTModel/MTSpec/MTProofs/StarProofs/MTProps.v`
Modelled: `infer_star_state`, `check_state_of_star(_history_array)`, `get_i_He_depl`, `infer_mass_transfer_case`,
`cumulative_mass_transfer_numeric/_string/_flag`, `get_binary_state_and_event_and_mt_case(_array)` of
`posydon/utils/common_functions.py` and the constants of `limits_thresholds.py`.  Floats are NaN, the infinities
or a rational (the literals are the exact doubles); the code only compares them, so this is exact.  The two
rounded operations of `infer_star_state` (a subtraction and `round(x, 10)`) and the constant log10(0.03) are
universally quantified.
Not modelled: the texts of warnings.
Assumptions: none.  Findings: with shift_cases an undetermined entry erases star 1's later cases and a no-RLO
entry invents one; NaN overflow counts as mass transfer and case BC is never inferred; ties favour one label and
two exhausted cores always give CC1; a history-index call mixes the row with the companion's current state; four
inferable star states have no entry in the flow chart; ALL_STAR_STATES lacks the non-burning states.

### Warnings (C43): `WarnModel/WarnSpec/WarnProofs/WarnProps.v`
Modelled: `_apply_POSYDON_filter`, `_issue_warn`, `_Caught_POSYDON_Warnings.__call__/reset_cache/got_called`,
`Catch_POSYDON_Warnings` enter/exit, `Pwarn`, `SetPOSYDONWarnings`; registries are heap objects, call stacks are
explicit lists of (file, line), Python's filter list is arbitrary.
Not modelled: what `warnings.warn` prints (handing a warning to it counts as issuing), `use_python_catch`, argument
type errors, the destructor.
Assumptions: none.  Findings: while catching with filter_first the stack level is off by one, so every warning is
attributed to the line inside Pwarn and warnings of one category from different places are merged (only the first
is recorded under the default filter); own registry + filter_first=False counts in the global registry; a nested
context switches the outer one off; an error filter leaves records behind.

### Populations (C20–C25): `PopModel/PopSpec/PopProofs/PopLoop/PopCombine/PopRun/PopProps.v`
Modelled: `BinaryPopulation.evolve` (choice and splitting of indices), `_safe_evolve` including the warning context,
alarm, batch files and leftover, `combine_saved_files`; `PopulationManager.append/remove/clear_dfs/breakdown_to_df/
to_df/to_oneline_df/save`; numpy's `array_split`.  Binaries are objects in a heap; drawing, evolving, failing and
converting a binary are arbitrary functions (they may raise, warn, leave an alarm, use the generator).  The file
system is a dictionary; whether HDF accepts an append is an arbitrary predicate.
Simplifications: paths without directory, metadata keys always present, exact mass sums, selection functions of
to_df not modelled, the metallicity column left out, the combined file always has both keys, no crash between two
file operations.
Assumptions: none.  Findings: repeated evolve() in parallel mode splits the already split part; a process without
binaries raises IndexError; one failing table conversion hides the stored tables and aborts the run at the next
save; batch files whose rows cannot be appended are deleted all the same; append(list) breaks remove; with repeated
indices remove takes the wrong position.

### Sampling (C19, C26–C29, C51): `SamplerModel/Spec/Proofs`, `ThinProofs`, `HistoSampleProofs`, `Inverse*`, `Sample*`, `DrawProofs`, `GenProofs`, `TimesModel`, `SamplerProps`, `SampleProps`
Modelled: `rejection_sampler`, `inverse_sampler`, `histogram_sampler`, `read_histogram_from_file`;
`infer_key`, `get_samples_from_file`, `get_kick_samples_from_file`; `generate_independent_samples`,
`generate_secondary_masses`, `generate_binary_fraction`, `FlatMassRatio.__init__`, `Sana12Period.rvs`;
`BinaryGenerator.draw_initial_samples/draw_initial_binary/reset_rng/get_binary_by_iter`; `get_formation_times`.
A numpy generator is an arbitrary state machine of raw numbers; uniform(lo, hi) is an arbitrary rounding of the
affine map; arrays of the independent sampler live in a heap, so aliasing is visible; loops carry fuel and the
theorems hold for all fuel.
Not modelled: the Moe+17-PsandQs sampler, the parsing of csv and text files, warnings, seeds and spawn keys.
Assumptions: `inverse_exact` uses the real-number axioms of the standard library; the rest none.
Findings: get_binary_by_iter(1) always raises with the independent sampler, and for larger n it gives the n-th binary
only under the stated conditions; sequences drawn from a file without explicit index repeat row 0; an empty sample file is an endless
loop; 'q=1' erases the primary mass of single stars; primary == secondary_mass_min raises; limits can be missed by
rounding; the histogram scenarios give one formation time for all binaries.

### Population tables (C30, C31): `TableModel/Spec/Proofs/Props`, `ExportModel/Proofs/Props`
Modelled: `History.__getitem__/__len__/head/tail/lengths`, `Oneline.__getitem__`, `Population.export_selection`.
A table is a list of rows with an integer label; `store.select(where=…, chunksize=…)` goes through the rows in pieces
and pd.concat of nothing raises ValueError.  Metallicity labels (floats) are integers (multiples of 2^-1074).
Not modelled: data types of columns, masks given as data frames, ini parameters, writes cut short by the system.
Assumptions: none.  Findings: a boolean mask on a history longer than one chunk raises or selects wrong rows; slices
without limits cover only labels below the number of systems; tail(0) is the whole table; export: see C31.

### Formation channels, transients, rates (C32-C35, C52-C54): `PyReplace`, `ChanModel/Spec/Proofs/Props`, `RateModel/Proofs/Props`
Modelled: `calculate_formation_channels` (str.replace included), `create_transient_population`,
`calculate_model_weights`, the model dictionary and chunk loop of `calculate_cosmic_weights`,
`calculate_observable_population`, `TransientPopulation.efficiency`, `calculate_intrinsic_rate_density`.
Weight formulas, redshifts, shell volumes and user functions are parameters; sums are exact.
Assumptions: none.  Findings: channels depend on the chunk size when the history and one-line tables are not in blocks
of the same order; model weights are swapped when the one-line table is not sorted by index; cosmic weights and
observables miss transients when there are more than c*ceil(n/c); MODEL_in changes the default for later calls;
observables are shared between star-formation histories.

### Interpolators (C45, C55): `InterpModel/Spec/Proofs/Props`
Modelled: `interp1d` (construction with its self-check, evaluation, extrapolation; np.interp as search for the interval
and the straight line) and `SingleStarInterpolator` (grouping by flags, keys, call).  Exact rationals; PchipInterpolator
is a parameter.  Not modelled: NaN, infinities, arrays as evaluation points.
Assumptions: none.  Findings: repeated abscissae are accepted unless the first is repeated; left and right are ignored when
extrapolating.

### Star-formation histories and bins (C36, C37, C56, C57): `SfhModel/Spec/Proofs/Props`, `BinModel/Props`
Modelled: the limits of `SFHBase`, `_distribute_cdf` step by step, the tabulated CDF of `IllustrisTNG` and `Chruslinska21`
(through `interp1d`), the choice of the table row, `get_SFH_model`; `edges_metallicity_bins`, dlogZ written to and read from
the file, `get_redshift_bin_edges/centers`.  CDFs, log10 and z_at_value are parameters (z_at_value is taken to raise for
times that are not positive); the metallicity edges use the real logarithm.  Not modelled: CSFRD formulas, data files.
Assumptions: the real-number axioms of the standard library for the metallicity bins; none otherwise.
Findings: the mass of the lowest tabulated metallicity is never assigned; both limits below the bins fill the lowest bin;
normalising nothing gives NaN; the redshift bins cannot be computed when at most half a step is left; the oldest bin counts as
a whole step; dlogZ given as one-element list turns into a width; the default parameters lack sigma.

### Small utilities and ini files (C41, C42, C44, C46, C47, C58): `ReasonModel/Props`, `DownloadModel/Props`, `ConfigModel/Props`, `DtypeModel/Props`, `IniModel/Props`
Modelled: `IgnoreReason`; `data_download`, `download_one_dataset` over a small file system with failures at every step, the
names of `datasets.py`; `ConfigFile` with entries, attributes, json text of plain values; the type tables and
`clean_binary_history_df`/`clean_binary_oneline_df`; `simprop_kwargs_from_ini` and `binarypop_kwargs_from_ini`.
ast.literal_eval, int and the imports are parameters; configparser is a list of sections with their options.
Not modelled: the network, tar contents, json number formatting, printing.
Assumptions: none.
Findings: a mismatching archive is unpacked if it cannot be read or removed; the checksum error reaches the caller as
FileNotFoundError; a failed download blocks retries; the default data set raises KeyError; unknown objects are saved as null
and a failed save loses the old file; six columns of one-line tables get no declared type; a hook section with only import
lines loses its last hook; a step section without import is ignored silently; job arrays with a step give ranks beyond the size.

### Simulation properties and track matchers (C49, C50): `SimPropModel`, `SimPropProofs`, `SimPropLoad`, `SimPropLists`, `SimPropProps`
Modelled: `SimulationProperties.__init__`, `set_path`, `load_steps`, `load_a_step`, `check_step`, `_check_track_matcher`,
`create_track_matcher` with all exits, the in-place changes of the tuples' dictionaries, `TrackMatcher.separate_kwargs`
and `convert_metallicity_to_string`.  Metallicities are integers in units of 1e-4, matchers are places in a heap.
Opening a grid file, training and calling a step's class are parameters that may raise.
Not modelled: ini files inside `load_a_step`, two tuples sharing one dictionary object, warnings.
Assumptions: none.
Findings: max_n_steps_per_binary passed as a keyword is ignored; tuples of unknown form in extra_hooks are ignored;
a failed retraining leaves a matcher with options it was not trained with, accepted by the next load; options for matching are
popped from the user's tuple and lost when its metallicity is changed; a metallicity in one step's tuple leaks into the steps
loaded after it; load_steps on an object with a step left out raises AttributeError; reloading with another metallicity keeps the first.

### Orbits and spins (C17, C18, C48): `RealLemmas`, `OrbitModel/Proofs/Props`, `SpinModel/Props`
Modelled over Coq's real numbers, NaN as `None`: `roche_lobe_radius` with numpy broadcasting of numbers and one-dimensional arrays
and what the caller's arrays hold afterwards, `check_for_RLO`, the two Kepler conversions with the constants of constants.py,
`chi_eff`, `effective_precession`, `m_chirp`, `mass_ratio`.
Not modelled: rounding, infinities, arrays with more axes, complex results of fractional powers of negative Python floats.
Assumptions: the axioms of the real numbers in the standard library, as listed by `Print Assumptions`.
Findings: the two Kepler conversions use different constants (cgs against solar-system units) and differ by a factor 1.000148;
`roche_lobe_radius` and `chi_eff` overwrite invalid values in the caller's arrays; `effective_precession` exceeds 1 when star 2 is
the heavier one, and depends on the order of the stars.

### Distributions of initial parameters (C39, C40): `IntegralLemmas`, `DistModel/Spec/Proofs/Props`, `ImfProps`, `SeparationProps`, `SanaProps`
Modelled over the real numbers: the constructors, `pdf` and analytic `rvs` of every class in popsyn/IMFs.py and popsyn/distributions.py.
`quad` is Coquelicot's improper Riemann integral over the open interval; scipy's `truncnorm` is its textbook definition.
Not modelled: quadrature error, warnings, sampling through grids (`inverse_sampler`, `rejection_sampler`: C19), integer arrays
(`Sana12Period.pdf` with integer periods truncates the mass, because `np.full_like` copies the type).
Assumptions: the axioms of the real numbers, `Classical_Prop.classic` and functional extensionality, as listed by `Print Assumptions`.
Findings: `LogUniform.pdf` lacks a factor 1/ln 10 and integrates to 2.30; `ZeroEccentricity.pdf` is 1 at 0 but no density;
slope 1 makes `rvs` of Salpeter and Kroupa1993 divide by zero; Sana12Period with p_max below 1 day gives NaN above 15 solar masses;
with p_min well above the break (10 to 100 days) its constant is negative, `pdf` is still right because the sign cancels, but
rejection sampling is given a negative function; Kroupa2001 with unordered breaks jumps.

### Weights of a population (C38): `WeightModel/Proofs/Props`
Modelled over the real numbers: every function of popsyn/norm_pop.py (the four densities, their product, the mean mass, the
weights), with the dictionaries of parameters as a record and NaN as `None`.
Not modelled: quadrature error, warnings, infinities (an unrecognised mass function with equal limits, primaries of mass 0),
the shape of arrays, keys with values of other types.
Assumptions: the axioms of the real numbers, `Classical_Prop.classic` and functional extensionality, as listed by `Print Assumptions`.
Findings: `get_mean_mass` integrates the mass ratio between the limits of the lightest and the heaviest primary although the density
of a flat mass ratio has limits that depend on the primary: with the default limits (7 to 150 and 0.35 to 150 solar masses, only
binaries) the mean mass is too small, by up to 3.4 per cent.  The period density of the separation scheme uses `LogUniform.pdf` as if
it were a density in the logarithm and is divided by the separation.  An unrecognised mass function gives a constant density outside
the limits too.  `power_law_mass_ratio` without limits uses 0.05 to 1 in the density and the secondary masses' limits in the mean mass.
The sampler's scheme 'q=1' is taken as flat in (0,1].  A flat mass ratio with only one of q_min and q_max raises KeyError.

### Downsampling of tracks (C59): `DownsampleModel/Proofs/Props`
Modelled over the real numbers: grids/downsampling.py (rescaling with the matrix's type, construction, DS, find_downsample,
extract_downsample, downsample).  The recursion is on the distance between the two rows; the specification speaks about the returned
row numbers only.
Not modelled: NaN, ragged input, the recursion limit, rounding, messages.
Assumptions: the axioms of the real numbers and functional extensionality.
Findings: an integer matrix is rescaled in place with integer entries, so all values but the greatest become the least (0, 1, 2, 3 comes
back as 0, 0, 0, 3).  `max_err=None` ignores a given `max_interval`.  `max_err` of 1 or more is only warned about.

### Scrubbing of histories (C60, C61, C62): `ScrubModel/Proofs/Props`, `RloProps`, `DepletionProps`
Modelled: the three functions of grids/scrubbing.py over tables as lists of rows with named columns, numbers as rationals or NaN,
including the change of the caller's arrays through views.
Not modelled: other types of values, missing star columns `center_he4` and `center_c12`, infinities.
Assumptions: none.
Findings: a NaN in the last age drops all other rows.  `keep_after_RLO` changes the caller's arrays, returns None instead of a tuple if
there is no mass transfer, and raises Exception if two consecutive ages after the onset are equal (and none decreases).  `keep_till_central_abundance_He_C` drops the only depleted
row if it is the last one, and line 261 tests h1 where h2 is read.

### Scaling of data (C63): `ScalerModel/Props`
Modelled over the real numbers: all of interpolation/data_scaling.py, as a state (parameters, method, limits) and its methods; the state
after a failed fit is part of the model.
Not modelled: infinities (merged with NaN), rounding, arguments of transform that are not arrays.
Assumptions: the axioms of the real numbers, `Classical_Prop.classic` and functional extensionality.
Findings: constant data become NaN with the range methods.  `fit` stores the method before checking it, so that after a failed fit
`transform` passes the assertion: it is the identity for an unknown method, and uses stale parameters after refused limits.

### Termination flags (C64, C65, C66): `PyStrip`, `TFlagModel`, `LogProps`, `MTFlagProps`, `ClassProps`
Modelled: get_flag_from_MESA_output (on the list of lines), check_state_from_history, get_mass_transfer_flag, get_flags_from_MESA_run,
infer_interpolation_class of grids/termination_flags.py and combine_TF12 with its pools of visualization/combine_TF.py.  The cases are
those of `MTModel` (C13, C14), the states those of C16.  `strip` is specified independently in `PyStrip`.
Not modelled: file access, decoding, gzip; combine_TF12 with lists of different lengths.
Assumptions: none.
Findings: a log whose only codes mention min_timestep_limit returns the earliest of them, also with text around it, which is then in no
pool.  'Reached TPAGB' is in no pool, so that such runs are 'unknown'.  One unclassified row of star 1 (code 9) hides all its later
cases, because cases never go back, and thereby a reverse mass transfer.  'Unstable case Aundetermined_MT' is cut to 25 characters.

### Joining grids and the overflow boundary (C67 to C70): `PySplit`, `RloModel`, `JoinModel`, `OverflowProps`, `NameProps`, `JoinProps`, `GridFileProps`
Modelled: get_detected_initial_RLO and get_nearest_known_initial_RLO of grids/termination_flags.py, their use in PSyGrid.create
(psygrid.py:1260-1353) and join_grids (2461-2701), initial_values_from_dirname, GridReader's run selection and read_initial_values of
grids/io.py.  `PySplit` has str.split with its specification.
Not modelled: glob, HDF5, the data types beyond equality, "." and ".." in paths, letters and digits beyond ASCII in the compression.
Assumptions: none.
Findings: a run without inlist_grid_points makes the initial-overflow fix raise TypeError (`C67_no_grid_point_refuted`).  Closeness of
masses is not transitive (`C67_apart_refuted`, `C67_close_refuted`).  Less than 20 detected systems give no boundary at all.  join_grids
copies no /grid/SN_MODELS; input_paths given as one str is iterated by characters although the docstring allows it.  A rerun flagged
ignored_no_RLO removes the earlier run; a later rerun puts it at the end.  The remaining findings are the exceptions named in C67 to C70.

### Mergers and isolated stars (C71, C72): `MergeModel`, `MergeProps`, `MergeThms`
Modelled: all branches of MergedStep.merged_star_properties with its aliasing (merged_star is star_base or comp, so values are read from
an object being changed), mass_weighted_avg, _apply_nan_attributes, convert_star_to_massless_remnant, the calls of the merged, isolated,
disrupted, initially single and end steps.  `MergeProps` has the specification and the lemmas, `MergeThms` the theorems.
Not modelled: warnings, the detached step, update_star_states, star attributes outside STARPROPERTIES other than as unchanged.
Assumptions: none; float operations are arbitrary functions, exact ones in C71_between and the examples.
Findings: `merged_star.log_LHe = star_base.log_LHe` after the erasure reads the erased object, so a merged star never burns
(`C71_burning_refuted`).  For two helium stars masses are added before the surfaces are mixed (`C71_surface_refuted`).  A main-sequence
star cannot merge with a helium star (ModelError).  accreted_He_Core_H_burning counts as evolved.  With a white dwarf its mass is added to
every core mass.  With a star on the helium main sequence and a carbon-oxygen core on either side the survivor's center is kept.
massless_remnant is accepted as the base of a merger with a compact object.  The state is set to merged before the ValueError of an
unexpected event.  The step for initially single stars compares the event with None instead of clearing it (`C72_event_refuted`).

### Core collapse (C73 to C79): `SNModel`, `SNTypeProps`, `RembarProps`, `PISNProps`, `GravModel`, `GravProps`, `CollapseProps`
Modelled: check_SN_type, check_SN_CO_match, compute_m_rembar (rapid, delayed, direct; lookup engines as a function), PISN_prescription,
collapse_star with all three ways to the remnant, in rational arithmetic with NaN, infinities and None for the attributes (`SNModel`); the
gravitational mass and the kick in real arithmetic (`GravModel`).
Not modelled: float rounding; infinite results of divisions by numpy zeros; warnings; PISN given as a text which float() accepts; the
lookup engines themselves, do_core_collapse_BH, CO_radius, the ejecta masses (parameters); the change of the stored dictionary.
Assumptions: none for C73, C74, C75, C78, C79; for C76 and C77 the axioms of the standard library's reals (sig_not_dec, sig_forall_dec,
functional_extensionality_dep).
Findings: delayed with a CO core of exactly 11 has no branch (`C74_eleven_refuted`).  direct_he_core is accepted by __init__ but not
implemented (`C74_direct_he_core_refuted`).  Fallback fractions above 1 (`C74_fraction_refuted`) and fraction 1 for pulsational remnants
(`C74_limited_fraction_refuted`).  The fit of Marchant+19 exceeds the core at the lower end (`C75_loss_refuted`); with the envelope
conserved the gap is filled (`C75_gap_refuted`).  In Hendriks+23 the floor of 1e-4 for the metallicity is applied to solar units, so the
absolute floor is 1.42e-6.  asym_ej inverts the unlimited relation only (`C76_inverse_refuted`).  linear kicks can be negative
(`C77_sign_refuted`).  The radius of a white dwarf is erased after its computation (`C78_wd_radius_refuted`).  The engines' verdict is
ignored or makes the collapse fail (`C78_engine_state_refuted`).  Stored pair-instability outcomes are never used
(`C79_pair_instability_refuted`), since the comparison type is computed without the pair-instability prescription.

### Supernova kicks and the supernova step (C80 to C85): `KickModel`, `KickProps`, `StepSNModel`, `StepSNProps`
Modelled: the orbit after a supernova with SNCheck, rotate and get_combined_tilt in real arithmetic (`KickModel`); orbital_kick with its
bookkeeping for both events, __call__, update_star_states for compact objects, separation_evol_wind_loss and
orbital_period_from_separation for positive arguments (`StepSNModel`).
Not modelled: float rounding and overflow (np.round of sin(psi) is modelled); the root search (its result is an argument and Kepler's
equation is proved to have one root); the random generator; collapse_star, the state of normal stars, the inspiral time (parameters);
append_state; masses, separation or eccentricity of a bound binary that are None or NaN.
Assumptions: the axioms of the standard library's reals (sig_not_dec, sig_forall_dec, functional_extensionality_dep) and, through
trigonometry, Classical_Prop.classic.
Findings: a negative kick (C77) disrupts a bound binary because SNCheck expects |Vkick| (`C82_negative_refuted`).  Rounding sin(psi)
circularises nearly circular orbits (`C83_small_eccentricity_refuted`).  update_star_states overrides max_NS_mass with 2.5
(`C80_max_NS_mass_refuted`) and makes a neutron star below 1.1 a white dwarf, after which the kick cannot be drawn
(`C80_light_remnant_refuted`).  Without kicks star 1's mass loss is used for both events and disrupted binaries become detached
(`C80_no_kick_refuted`).  V_sys is overwritten at the second supernova (`C85_velocity_refuted`).  binarystar.py:209-212 initialises
true_anomaly_SN1 instead of true_anomaly_first_SN (`C85_flag_refuted`, `flag_example`).

### Supernova models and engines (C86, C87): `SNNameModel`, `SNNameProps`, `EngineModel`, `EngineProps`
Modelled: the tables DEFAULT_SN_MODEL and SN_MODELS with get_SN_MODEL, get_SN_MODEL_NAME, the attributes of StepSN with these names and
check_SN_MODEL_validity (`SNNameModel`); get_CO_core_params, calculate_Patton20_values_at_He_depl, Patton20, Maltsev25, Sukhbold16 and
Couch20 core collapse (`EngineModel`).  Python's == of booleans and numbers is modelled.
Not modelled: reading the data files; the nearest-neighbour regressions of Patton et al. (parameters); which of several equally near rows
sklearn takes (here the first one); interp1d is modelled as linear interpolation after a stable sort, without rounding; None or NaN masses.
Assumptions: none (closed under the global context).
Findings: ECSN is not compared, so tabulated results of Tauris+15 are used for any ECSN (`C86_ignored`).  check_SN_MODEL_validity refuses
files that rely on defaults (`C86_default_refuted`) and raises KeyError without use_interp_values (`C86_missing_refuted`).  Sukhbold16 with
conserve_hydrogen_envelope reads the table of helium core masses at the total mass (`C87_envelope_refuted`); below the table the remnant may
be heavier than the star (`C87_below_refuted`).  Couch20 with verbose reads self.engine, which is never set (`C87_verbose_refuted`).

### Common envelopes (C88-C91): `CEEModel`, `CEEOrbitProps`, `CEEProps`
Modelled: all of posydon/binary_evol/CE/step_CEE.py (StepCEE) over the real numbers and period_change_stable_MT; attributes of stars and
binary are functions from names to None, NaN, number, text or other object.
Not modelled: calculate_lambda_from_profile, calculate_Mejected_for_integrated_binding_energy, do_matching and check_state_of_star
(parameters of the model); division by zero and arithmetic on attributes that are not numbers; warnings and verbose output; rounding.
Assumptions: the axioms of Coq's real numbers (with functional extensionality and excluded middle of the standard library).
Findings: post_CE_core_masses reads the companion's core radius from the donor (`C90_companion_radius_refuted`).  The chart sends donors
that the step refuses (`C90_refused_donors_refuted`, `C90_compact_donor_refuted`).  lambda_CE_* become NaN on ejection while m_core_CE_* and
r_core_CE_* stay, so with grid values the next common envelope takes the old core without spending energy (`C90_second_envelope_refuted`,
`C88_free_ejection`).  The two-phase options shift the separation by the factor of C17 though nothing is lost
(`C88_nothing_to_strip_refuted`).  With mass_loss_during_CEE_merged and a profile, mergers of single common envelopes fail with
UnboundLocalError (`C91_single_refuted`); thin envelopes make stars gain mass (`C91_gain_refuted`).  An unknown option for lambda is taken as
the default one if the donor has no profile (see `C90_core`); after an ejection profile is NaN, not None.

### Gravitational radiation (C92-C94): `InspiralModel`, `GravRadProps`, `InspiralProofs`, `DoubleCOProps`, `InspiralTimeProps`
Modelled: posydon/binary_evol/DT/gravitational_radiation/default_gravrad.py, posydon/binary_evol/DT/double_CO.py (solve_ODEs, the equations,
the dense output, the end of __call__), inspiral_timescale_from_separation, inspiral_timescale_from_orbital_period, CO_radius and
Schwarzschild_Radius, over the real numbers.
Not modelled: errors of the numerical integrations (solve_ivp gives a solution of the equations, quad the integral), brentq (a parameter that
finds a root if the signs differ), the spins (constant), histories with dt, failures of the solver.
Assumptions: the axioms of Coq's real numbers (with functional extensionality and excluded middle of the standard library).
How: a(1-e^2) / (e^(12/19) (1+121/304 e^2)^(870/2299)) is constant along solutions; it is strictly monotone in e, so its inverse gives
existence and uniqueness; comparison of derivatives gives the bounds.
Findings: the correction in default_gravrad changes the sign of the rate of tight orbits (`C92_growth_refuted`), and `(17325 + 10458) * e**4`
lacks the mass ratio that its neighbours have.  The tolerance of the dense output is absolute in units of the circular timescale, so mergers
of very eccentric binaries are recorded with the initial separation (`C93_eccentric_contact_refuted`).  Overlapping objects are integrated
backwards in time (`C93_overlap_refuted`), unbound ones merge at once (`C93_unbound_refuted`), and the event for the maximum time does not
fire if it is over already (`C93_late_refuted`).

### Physics of the detached step (C95-C98): `DetachedModel`, `TidesProps`, `BrakingProps`, `DetachedProps`
Modelled: posydon/binary_evol/DT/winds/default_winds.py, tides/default_tides.py, magnetic_braking/prescriptions.py, and the class
detached_evolution of step_detached.py (update_props, __call__, the five effects, the events), over the real numbers.
Not modelled: the interpolation of stellar tracks (the properties of the stars are given), the numerical integration, messages, values that
are not finite (they are replaced by 0 in the code), NaN in the borders of convective regions.
Assumptions: the axioms of Coq's real numbers (with functional extensionality).
How: conservation laws are statements about derivatives of angular momentum and energy, written with G from Kepler's third law, of any
functions that follow the equations; tides need f1 - 9e^2 f3 = (1-e^2) f2, f2 - 11/2 e^2 f4 = (1-e^2) f5 and f2^2 <= f1 f5.  Torques are
compared with the published formulas in cgs units.
Findings: the primary's saturated branch of M15 divides by 2.6e-6 instead of omega_sol (`C97_M15_twins_refuted`); the solar values of M15 do
not meet at Rossby number 0.14 (`C97_M15_jump_refuted`); CARB uses the mass of the secondary for the primary (`C97_CARB_primary_refuted`) and
converts Gauss^4 with secyer instead of secyer^4, so the Alfven radius is too small by the factor secyer (`C97_CARB`); the limit of 100 on
the spin-up destroys angular momentum (`C95_spin_refuted`); an unknown magnetic_braking_mode fails since the text of the warning is split by
a comma and lands in stacklevel (`C98_mode_refuted`); the branch for R <= 0 of E2 cannot be reached.

### Course of the detached step (C99-C104): `DetStepModel`, `DetStoreModel`, `RolesProps`, `DetEndProps`, `DetTimeProps`, `DetSpinProps`, `DetStoreProps`
Modelled: determine_star_states, calc_omega, update_rotation_info, the part of update_star_properties about rotation (track_match.py);
detached_step.__call__ (beginning, the branches after the integration), get_time_after_evo, update_after_evo (which property comes from where,
with its value), the rows of the history (step_detached.py); the names in key_library.py, STARPROPERTIES, BINARYPROPERTIES.
Not modelled: the search for the matching track, the interpolation between points of a track, the integration (its outcome is an arbitrary
input), accretion by winds, warnings.  Exceptions while matching.
Assumptions: those of the real numbers where values are reals; rational numbers for the times.
How: case analysis over the states; Kepler's law determines the period; arithmetic of ceilings for the times; lists for the rows.
Findings: POSYDONError on the collapse of the secondary next to a primary that burns hydrogen in a shell, and not in the mirrored binary
(`C100_collapse_refuted`); last time beyond the end, IndexError for short evolutions (`C101_dt`, `C101_dt_refuted`); angular momentum not
conserved by the match (`C102_conservation_refuted`), record without rotation (`C102_unknown_refuted`); three properties become NaN, one of
them, he_core_radius, is what the common envelope step uses for a stripped core (`C103_stored`); conv_env_turnover_time_l_b in years
(`C103_units_refuted`); first state stale (`C104_states_refuted`).

### Accretion onto compact objects (C105-C107): `AccretionModel`, `EddingtonProps`, `WindAccretionProps`
Modelled: eddington_limit, beaming, bondi_hoyle with the wind schemes, stefan_boltzmann_law (common_functions.py), over the reals; a row of the
history or the current values.
Not modelled: Newton's method (its solution of Kepler's equation is an input), the generator of the random anomaly (any anomaly), warnings.
Assumptions: those of the real numbers.
How: algebra of the formulas; trigonometric identities for the orbit; case analysis for the tables.
Findings: white dwarf radius from grams (`C105_white_dwarf_refuted`); only the last row's limit (`C105_rows_refuted`), which the detached step
uses for all rows; beaming factor above 1 (`C106_monotone_refuted`); slow wind of giants overwritten (`C107_giant_refuted`); accretion may exceed
the wind (`C107_more_than_lost_refuted`); Kudritzki's factor is decided by the last temperature for all rows; the mean motion uses the radius of
the star in place of the separation, and the sign of one component mirrors the position - both without effect on the result's distribution.

### Core and envelope from a profile (C108-C112): `EnvelopeModel`, `EnvelopeProps`, `EnergyProps`, `LambdaProps`
Modelled: calculate_core_boundary, linear_interpolation_between_two_cells, get_mass_radius_dm_from_profile, get_internal_energy_from_profile,
calculate_H2recombination_energy, calculate_recombination_energy, profile_recomb_energy, calculate_binding_energy,
calculate_lambda_from_profile, calculate_Mejected_for_integrated_binding_energy (common_functions.py).  A profile is a record of optional columns.
Not modelled: warnings, the text of messages; NaN in columns; floating point (division by zero is the total function of the real numbers, so
statements about lambda assume an energy that is not 0); that recombination clips the ionization columns of the profile in place.
Assumptions: those of the real numbers.
How: induction over shells for sums and loops; weights between 0 and 1 for interpolation; algebra for lambda.
Findings: 0 in place of -1 for a core below the innermost shell (`C108_all_envelope_refuted`); `any` in place of `all` in the checks
(`C109_check_refuted`); log_R-only profiles (`C109_log_R_refuted`); core mass above the mass of the star (`C110_CO_core_refuted`); stars that
accreted helium refused (`C110_accreted`); whole envelope ejected without energy (`C111_nothing_refuted`); targets outside
(`C112_outside_refuted`).

### Steps with a grid of MESA models (C113-C122): `GridEntryModel`, `GridEntryProps`, `GridFlowProps`, `GridStepModel`, `GridStepProps`
Modelled: the conditions in `__call__` of the five subclasses of MesaGridStep (step_mesa.py), over the rationals, with the outcome as a value: evolve
(turned round or not), return with state and event, fail.  The ranges of a grid.  update_properties_NN for properties of five kinds (columns of the
binary and of the star, unchanged, states, derived), stop_at_condition, flush, and the branches of `__call__` for the maximal time and for conditions.
Not modelled: NaN, how the nearest track or the interpolated values are found (inputs), properties of the compact object except C123, file access, warnings.
Assumptions: none.
How: case analysis by the conditions of a specification (`rule`, `role`) that names ranges and roles instead of flags; for C118 computation over all
states and events of the chart; induction over rows.
Findings: the precedence of and/or at lines 1598-1607; flips ignored at 1697 and 1703; mass ratio of the wrong star at 1333; no flip in HMS_HMS_RLO_step;
donors the chart sends but the step refuses; an event without entry in the charts; UnboundLocalError with neither option; first row twice; states of the last
row after a stop; IndexError at a track's end; stop_at_condition hardly ever works.

### Black holes that accrete (C123-C125): `BHModel`, `BHProps`
Modelled: spin_stable_mass_transfer (common_functions.py), compute_isco_properties and BZ_jet_power (profile_collapse.py), over the reals; the rates
recorded by step_mesa.py for accreting compact objects.
Not modelled: rounding; a spin of exactly 1 in compute_isco_properties (0 / 0).
Assumptions: those of the real numbers.
How: the polynomial equation of the radius in its square root, from the cube roots by algebra; monotonicity through a closed form.
Findings: the Eddington limit in rows of a track is compared with a logarithm.  Also noted: update_properties_NN passes the mass of the first row of the
neighbour instead of that of the binary as the old mass (line 655), the interpolation passes the latter (936).

### The collapse of a profile (C126-C128): `CollapseModel`, `ShellCollapseProps`
Modelled: get_initial_BH_properties, do_core_collapse_BH, get_ejecta_element_mass_at_collapse (profile_collapse.py), find_index_nearest_neighbour.
Not modelled: Simpson's rule (an input; irregular points may give negative weights, hence the hypothesis on the angular momentum of the centre), the
helium that is lost (computed but not returned), arrays that are not returned, plots.
Assumptions: those of the real numbers.
How: a closed form of one shell without angles, an invariant over the shells, telescoping sums.
Findings: as listed in C127 and C128.  Also noted: step_SN.py calls the ejecta with the gravitational mass of the remnant (lines 763, 906).

### Constraints on interpolated quantities (C129-C133): `ConstraintModel`, `ConstraintProps`
Modelled: all of posydon/interpolation/constraints.py with its concrete list of constraints, over the reals with NaN, dictionaries as lists of items.
Not modelled: rounding, infinities (as NaN), the switch INTERPOLATION_CONSTRAINTS_ON, printing, check_order_of_constraints.
Assumptions: those of the real numbers.
How: C132 flattens the run into single corrections, which are a part, in order, of 52; that no later one spoils an earlier is decided by computation from
the quantities they read and write, but for the two pairs about the rate of mass loss, treated by hand.  The laws are stated in their own units.
Findings: as listed in the exceptions.  Also noted: check_order_of_constraints cannot run (dictionaries have no attributes, `upate`); a star 2 without one
of the quantities of star 1 raises KeyError; the assertion in xfer_fraction_func fails if lg_system_mdot_1 is not an output, since lg_system_mdot_2 is then
not bounded before.

### Tracks between and nearest to those of a grid (C134-C138): `TrackGridModel`, `TrackGridProps`, `NeighbourModel`, `NeighbourProps`
Modelled: get, get_final_values, get_final_state and get_profile of GRIDInterpolator over the rationals, with log10(0.99) as a parameter and interp1d as in
`InterpModel`; psyTrackInterp (train, evaluate) over the reals, scikit-learn's search for a nearest point by the first smallest distance.
Not modelled: reading and pickling of grids, the translation of names, NaN among time series and profiles, infinities among final values, rounding.
Assumptions: none for C134-C137; those of the real numbers for C138.
Findings: as listed in the exceptions.  Also noted: the error for an unknown method names `None`, as the attribute is reset before; if log_L of the runs never
reaches the main sequence, the track starts at its first row without notice.

### The initial-final interpolator (C139-C144): `IFModel`, `IFProps`, `IFPredictProps`
Modelled: BaseIFInterpolator (_setValid, _fillNans for a column, _bestInScaling, the end of the constructor, training, test_interpolator, evaluate_mat and
evaluate for one binary), Scaler and MatrixScaler over `ScalerModel`, MC/Lin/NNInterpolator and KNNClassifier with the fits of scipy and scikit-learn as
parameters, xval_indices with the shuffle as a parameter, and the key check and union of IFInterpolator.  Sanitisation is a parameter here (see C129-C133).
Not modelled: reading grids, the choice of the output scalings and of the number of neighbours by cross validation, lists of classes sharing an interpolator,
probabilities, distances in warnings, saving and loading, plots and assessments.
Assumed about the parameters, as hypotheses of the theorems that need them: a linear interpolator gives the datum at a datum and, where it does not give NaN, values
between data; a nearest neighbour is one of the data.
Findings.  Runs with missing inputs and runs without history are used (C139).  The rows of the inputs include runs for classification only, the classes do
not, so classes and rows are shifted (C140).  A scaling given as documented fails always, and so does the default of method 1NN (C140).  A single linear interpolator
returns scaled values, as the scaler has no entry for the predicted class, and fails outside of the hull (C141).  Folds of cross validation with labels are all alike
(C143).  Seen but not modelled: train_and_assess passes keywords that the constructor does not have; options of xtrain are ignored; _binary2array assumes the order of
keys; the distances in warnings of extrapolation take the scaler of the wrong row; is_in_ball without logarithms compares a point with itself.

### Sampling after Moe & Di Stefano (C145-C147): `MoeModel`, `MoeProofs`, `MoeProps`, `MoeSampleProps`
Modelled: Moe_17_PsandQs as a whole, for one primary per call: _idl_tabulate for points at equal distances and p = 5, the slopes and frequencies, the tables, and
__call__ with the numbers drawn as a parameter.  Real numbers; a table with maximum 0 would have NaN in the code, and the theorems have hypotheses that exclude it.
Proved by: gluing pieces with a common Lipschitz bound; monotone cumulative sums; np.interp of a table and of the table with exchanged columns as a Galois connection,
which gives the distribution of samples.
Findings.  With all_binaries=True, which is the default, the number drawn is compared with 1 but the table of periods ends at the fraction of binaries, so every number
above gives the largest period (about 60% of primaries of 1 Msun), C147.  Below 0.8 Msun a secondary can be less massive than M_min, as the table is only cut at supporting
points (C147).  A minimal or maximal period or a resolution with a supporting period just above two days makes the constructor fail (C146).  Seen but not modelled: the
documentation says that log10 of the period is returned, it is the period; M_max is not used.

### Transients and their detectability (C148-C150): `TransModel`, `TransProps`, `DetectProps`
Modelled: GRB_selection, BBH_selection_function (without the columns of C48), DCO_detectability with mass_ratio and chi_eff for one merger, and KNNmodel
(bounds rounded to five digits, normalisation, prediction and assertion).  pandas: tables are lists of rows; .loc with a list; shift and masks; assignment of values by order
and of columns by index.  scikit-learn: the ten nearest points (ties in favour of the first of the grid), weights 1/distance, or the mean of the points at distance zero.
Not modelled: reading the grid, which masses beyond the grid extrapolate (the nearest ten points are taken anywhere), progress bars.
Findings.  GRB_selection attributes rows by order (C148); one binary without the expected pair of rows makes the whole chunk fail.  DCO_detectability takes S1_mass as
mass of the primary while the mass ratio is always at most 1 (C150).  Seen but not modelled: z_weights_chunk.to_numpy() may share memory with the weights given, which
are then changed in place; chi_eff replaces NaN in the columns given to it.

### Post-processing of grids (C151-C153): `PostModel`, `PostProofs`, `PostProps`, `PostRowProps`, `PostFileProps`
Modelled: post_process_grid with assign_core_collapse_quantities_none, the legend of mass-transfer histories, index and slices, the writes to each column in order, the test of
completeness and the renaming; add_post_processed_quantities with the conversions of the columns.  A star is a function from attributes to values (text, float with NaN, None,
other).  check_state_of_star, calculate_Patton20_values_at_He_depl, CEE_parameters_from_core_abundance_thresholds and StepSN are arbitrary functions of the star
(the first, second and the constructor of the last may raise; failures of the collapse are caught).  get_SN_MODEL and combine_TF12 are those of `SNNameModel` and `TFlagModel`.
Not modelled: from_run (the stars of a run are given), printing, warnings, attributes stored with the datasets, masked arrays and fields of different lengths.
Findings.  A negative end of the range gives directories without values (C151).  'Unstable case AA' is missing from the legend though 'Stable case AA' was added, so that one
such run makes the processing of a whole grid fail with KeyError (C152).  The settings in SN_MODELS given to post_process_grid are ignored; unknown names get the default
settings (C152), and their columns are not stored (C153).  Runs of other classes, as ignored ones, have the state of star 1 classified as if it were a compact object (C152).

### Strength of tides (C154): `TideStrengthProps` on `DetachedModel`
Added because mutants of the turnover time and of the damping of fast tides survived C96, which holds whatever the strength is.  The specification gives the turnover time by its
cube and the two rates as relations; it shares with the model only the constants and the record of the star.

### New stars and binaries (C155, C156): `StarInitModel`, `StarInitProofs`, `StarInitProps`
`SingleStar.__init__` (singlestar.py:141-381) and `BinaryStar.__init__` (binarystar.py:136-237) with keyword arguments as association lists and objects as maps from attribute
names to values (text, number or NaN, None, list, other object).  The state of a compact object is inferred by `infer_CO`, the function of common_functions.py for compact objects.  Stars given
are deep copies, so equal as values.
Findings: the radius of a compact object is computed for the state given, not for the one inferred (C155_radius_refuted); compact objects are reclassified
(C155_white_dwarf_refuted); a star without a state stores an empty text (C155_no_state), though the composition of an unevolved star is assumed.

### Binaries and stars from runs (C157, C158): `FromRunModel`, `FromRunProofs`, `FromRunProps`
`BinaryStar.from_run` and `SingleStar.from_run` on runs as tables of named columns, starting from the objects of `StarInitModel`.  `check_state_of_star` (except for the branch for
compact objects, `check_CO`) and `get_binary_state_and_event_and_mt_case` are parameters, so the theorems hold for whatever they return.
Findings: compact companions keep the radius, abundances etc. of `SingleStar()` with histories of one entry, so that their histories are not aligned with those of the binary
(C157_companion); the Z of the run is an absolute abundance while the property is documented as relative to the Sun; a run without Z raises ValueError, since only AttributeError is
caught; the history of the metallicity of a single star is all None; `V_sys` is None although `to_df` takes it apart into three columns.

### Cores for common envelopes (C159): `CEEParModel`, `CEEParProps` on `EnvelopeModel`
`CEE_parameters_from_core_abundance_thresholds` with the functions of C108 and C110.  The star is its mass, radius, state and profile; what the function stores are the four triples of
mass, radius and lambda.  The carbon-oxygen core of a hydrogen-rich star is computed too, but can exceed the star (C110_CO_core_refuted), so nothing is claimed about it.

### Scripts and checks of population runs (C160 to C162): `RescueModel`, `RescueSpec`, `RescueProofs`, `RescueParse`, `RescueProps`, `CheckProps`, `CheckFlowProps`
`posydon/CLI/io.py` (the scripts for arrays, merges, rescues, and submission; reading a script back) and `posydon/CLI/popsyn/check.py`.  Texts are strings, and a script is what the code writes line by
line.  The file system is three functions (the population files, the texts, the listings of folders), the user a list of answers, and effects are the list of files written and commands given.
`RescueSpec` is a separate reader of job scripts: the jobs of an array, the rank and number a job passes on, directives, exported variables, and the submissions of a submit script with what they wait
for.  Metallicities are integers in units of 1e-4, turned into names by `zstring` of C36 (`convert_metallicity_to_string`).  Not modelled: printing, file permissions, failing commands, reading the ini.

Findings.  Values which contain "=" are cut at it when an array script is read back, so a rescue can have a truncated path of the data (C160_equals_refuted).  The number of batch files is compared before
their indices, so a file left by an earlier run hides a missing batch (C161_stale_refuted).  The log of a merge is taken for one of an array, and `int("merge")` raises (C161_merge_log_refuted).  A
population with a wrong number of binaries makes the check speak of complete batches and merges submitted though nothing is (C162_counts, C162_short_refuted).  Complete and incomplete
metallicities in one run make the rescue raise ValueError (C162_mixed_refuted).  Rescue scripts go to the current directory, the script submitting them by base name to the folder of the run.

### Steps with an interpolator (C163 to C166): `IFStepModel`, `IFStepProps`, `IFStepSNProps`
`posydon/binary_evol/MESA/step_mesa.py`: `initial_final_interpolation` (879-1052) and what of `__init__` and `__call__` decides on methods.  Objects are finite maps from attributes to values (as in
`StarInitModel`), the interpolated values and classes maps from columns, and a missing column raises KeyError.  Parameters: the inference of stellar states and mass-transfer cases, the captured rate and
the Eddington limit (each modelled elsewhere).  The radius and the spin of compact objects are those of `InspiralModel` and `BHModel`.  Not modelled: loading of grids, the interpolators (C139 to C142).

Findings.  Abundances are not passed when the kind of a compact object is inferred for its radius, so heavy white dwarfs get the radius of neutron stars (C164_radius_refuted).  Where interpolation makes
a compact object lighter, its spin becomes NaN (C164_spin_refuted).  After unstable mass transfer or initial overflow, the records of core collapse of an earlier step are left (C165_collapse).  A missing
column of a core-collapse model silently gives no record.  Interpolators with another way to stop raise AttributeError (C166_new); documented names of methods are accepted and fail at the first binary
(C166_documented_refuted).

### Compression of MESA files (C167 to C169): `CompressModel`, `CompressProps`
`posydon/utils/compress_mesa_files.py` (`get_size`, `compress_dir`, `textsize`).  A directory is what os.walk yields: paths of directories with names and files (bytes, or a link with or without target).
gzip -1 is a parameter on bytes, with its refusals (links, .gz there already); the command line is parted at spaces.  os.remove succeeds in the theorems.  `set_up_test`, printing, arguments are not modelled.

Findings.  Paths with spaces are not compressed, since the command is given to a shell without quotes (C168_space_refuted; other special characters would be run by the shell).  core.data, core.txt
are removed as dumps (C168_core_refuted).  A dangling link raises UnboundLocalError, because line 269 uses the variable of another loop (C168_link_refuted).  A file with a compression of an earlier run
beside it is left (C168_again_refuted).  With the default format, 999.5 to 1000 of a unit is written "1e+03" (C169_rounding_refuted).

### Equivalent evolutionary phases (C170, C171): `EEPModel`, `EEPProps`
`posydon/interpolation/eep.py`, all but reading the file.  Rows are maps from columns to exact rationals; the logarithm of the age and pchip are parameters, pchip with its checks.

Findings.  All phases are searched whichever are wanted, so a track which ends at TAMS, at TRGB, or at the first thermal pulse raises IndexError (C170_ends_refuted).  The rows used between two EEPs
exclude the second, so the last points are extrapolated (C171_extrapolates_refuted).  ZACHEB falls back to the first row, which is before TAMS, and then ValueError is raised (C171_order_refuted).
The search for IAMS and TAMS starts at the first row though a guess is passed.

### Matching of stars to tracks (C172 to C176): `MatchModel`, `MatchProps`, `MatchDataProps`
`posydon/binary_evol/track_match.py`: `create_root0_h`, `create_root0_he`, `get_root0`, the lists for matching, `match_through_minimize` (with its inner functions but `square_difference`),
`match_through_root`, `get_star_match_data` up to the interpolator, `do_matching` but the rotation (C102) and what is stored (C103).  The optimisers of SciPy are arbitrary functions of method, grid, quantities and
bounds, which succeed, fail, or raise.  `get_track_val`, the training of scalers and the square difference are not modelled: a function value is what the optimiser reports.  Where the model raises MatchingError the binary has also been set to failed.

Findings.  `get_root0` without rescaling factors divides by strings and always raises (C172_factors_refuted); a name which is not stored is compared with ages (C172_name_refuted, prevented in `match_through_minimize`);
a star with NaN starts from the first row of the grid (C172_unknown).  A star which burns accreted helium is looked for in the grid of stripped stars with the quantities and mass bounds of the H-rich grid
(C173_accreted_refuted); the last attempt always keeps to the masses of the grid it does not search (C173_bounds); the alternative quantities of stripped stars are the default ones (C173_repeated_refuted).
An error in a later attempt throws away a solution within the hard tolerance (C174_error_refuted); a star may change grids although no match is accepted (C174_grid_refuted); functions of different sets of quantities are compared with each other.
The end of a track is computed before rows are deleted (C175_end_refuted).  Matching only a primary which is no star raises UnboundLocalError (C176_unbound_refuted).

### Setting up populations (C177, C178): `PopInitModel`, `PopInitProps`
`posydon/popsyn/binarypopulation.py`: `BinaryPopulation.__init__` (metallicity, seeds, what is forced upon the properties) and the loading of steps in `_safe_evolve`.  A generator is its seed: entropy and number among the spawned ones;
numpy is trusted to give different numbers for different ones.  SimulationProperties live in a heap as they may be shared.  The manager, the closing at exit and other options are not modelled.

Findings.  Seeds of job arrays are JOB_ID plus the position of the metallicity: a rescue for the first metallicity with number j + k has the seeds of the array j of the k-th (C177_rescue_refuted).  With an entropy in the file of
parameters the arrays of all metallicities draw the same numbers (C177_entropy_refuted), although the comment promises "unique per metallicity".  A second population with the same SimulationProperties evolves with metallicity and
generator of the first, without a warning (C178_shared_refuted), as does one with steps loaded by hand (C178_by_hand_refuted); it changes when the first one ends (C178_time_refuted).  A population that is refused has changed the properties
(C178_refused_refuted).  A list of metallicities shorter than the index is refused even if the metallicity is given (C178_index).

### Setting up a run (C179): `SetupModel`, `SetupProps`
`posydon/CLI/popsyn/setup.py` whole, and of `posydon/CLI/io.py` `create_run_script_text`, `create_merge_script_text`, `create_python_scripts`, `create_slurm_scripts` (the rest: `RescueModel`).  The file of parameters is what was read from it.
Warnings (overwriting, mass ratio) and messages are not modelled; numbers are exact in the division of binaries by jobs.

Findings.  Metallicities are checked while files are written (C179_atomic_refuted); negative numbers of binaries and jobs pass together (C179_negative_refuted); a metallicity listed twice is run twice into the same files
(C179_twice_refuted); names with an apostrophe give scripts which are no programs (C179_apostrophe_refuted).

### Subsets of population files (C180): `SubsetModel`, `SubsetProps`
`posydon/popsyn/analysis.py` but `report_columns`.  The order in which Python lists a set is any permutation.  Columns are modelled apart from rows.

Findings.  A history longer than a part of the table is cut (C180_long_refuted: 2500 rows give 2000), rows of an index that comes again later are left out (C180_apart_refuted), negative numbers leave out binaries
(C180_negative_refuted), selectors that compare rows depend on find_n (C180_selector_refuted), and find_n is ignored without a selector (C180_all).

### Running again (C181, C182): `RerunModel`, `RerunProps`, `RerunLogicProps`
`posydon/grids/psygrid.py`: `PSyGrid.rerun`; `bin/posydon-run-pipeline`: `logic_rerun` and its use in `rerun` (lines 1013-1019).  The file is the table of its columns.  Histories have all columns used; a missing column (a ValueError of numpy) is not
modelled, nor are the creation of the directory, the reading of the csv file of the pipeline and the copy of the ini file.

Findings.  `runs_to_rerun_list += ...` extends the list of the caller, so a second call with the same list asks for the runs of the first as well (C181_argument_refuted).  -1 and n - 1 are different indices of the same run
(C181_twice_refuted).  A new option called like a column of the file silently replaces the values of the runs (C181_replaced_refuted).  A grid with none of the columns gives a file without rows whatever is asked for (C181_no_columns).
`envelope_mass_limit` is listed in the code but always refused (C182_kinds).  A grid whose columns hold no helium counts as too low in helium (all runs are run again, `low_He`).

### Templates of MESA

`InlistModel.v` models `clean_inlist_file` (posydon/utils/gridutils.py:436-484) on lists of ASCII lines with the `strip`, `split` and `in` of PyStrip, PySplit
and PyStr.  Opening the file is left out.  `InlistProps.v` proves C183 against a relation between lines and what they say.  Findings: a parameter that is set
to `''` after it had a value keeps the value (`C183_reset_refuted`); quotes are ignored, so an ampersand in a quoted value starts a section and the parameters
after it are filed there (`C183_quotes_refuted`); a value before the first section is an UnboundLocalError.

### Running a grid

`RunGridModel.v` models a run of `bin/posydon-run-grid` for a fixed grid: the sorting of columns into the six lists of parameters, the files written for MESA,
the steps of the formation of the stars, the grids of single stars.  A run of MESA is an event with the files it finds.  Not modelled: MESA itself (taken not to
change its inlists), directories and their names except that a text value cannot be named, the forked process that copies data before a job ends, the results
collected afterwards, the text of numbers.  `RunGridProps.v` and `SingleRunProps.v` prove C184 to C187.  Findings: columns unknown to the templates are ignored
silently; the third and later steps of the formation of a star in a binary run the second template again, and lose their profiles even with `--keep_profiles`
(`C185_third_refuted`); the optional `--mesa-star1-inlist-project` and `--mesa-star2-inlist-project` are in fact required (`C187_optional`); a fixed grid without
an index does nothing (`C187_silent`); text values pass the writer of inlists but not the naming of the directory (`C184_text`).

### Dynamic grids

`DynGridModel.v` models the root and the children of a dynamic grid (`bin/posydon-run-grid:620-735`) as a transition system with arbitrary interleaving; the
proposal of points and the results of runs are arbitrary.  Not modelled: the columns of points and results, a child that raises (it ends the whole MPI job), the
psy-cris code behind the proposals.  `DynGridProps.v` proves an invariant of all reachable states and from it C188.  Findings: the last points sent are run but
their results are lost and the children never end (`C188_hang`); with one process the root never ends (`C188_alone`); with pandas 2, which the project requires,
`DataFrame.append` does not exist and the bare `except` turns this into a ValueError about versions of POSYDON, so that no dynamic grid can record anything
(`C188_pandas`).

### Gamma-ray bursts

`GRBModel.v` models `popsyn/GRB.py` with floats that are NaN, infinite or rational and do not round; random angles are arbitrary.  `GRBProps.v` proves C189.
Findings: with the default threshold 0 every star with a disk is a burst, even with efficiency 0 (`C189_energy_refuted`); the Pescalli+15 beaming counts the
efficiency twice and exceeds 1 for small energies, so that isotropic energies fall below the energy (`C189_isotropic_refuted`); NaN efficiencies pass the check.

### Comparing runs

`CompareModel.v` models `dev-tools/script_data/src/compare_runs.py`: tables with numeric and other columns, the three comparisons and the exit status.  The texts
of reports are constructors; reading HDF5 is left out; `str` and `float` of cells are arbitrary functions; integers beyond 2^53, which the conversion to float
rounds, are not modelled.  `CompareProps.v` proves C190 by showing for each part that it reports nothing just when the specification holds.  Findings: a binary
with an error in both runs may lose its evolution without a report (`C190_binaries_refuted`); `None` and `"None"` are the same (`C190_none_refuted`); only the
first error of a binary counts (`C190_errors_refuted`); categories and messages are compared apart (`C190_warnings_refuted`); and with tolerances the verdict
still says that the candidate matches exactly.

### Counting evolutions

`ParseModel.v` models class `ParseDataFrame` of `posydon/visualization/VH_diagram/ParseDataFrame.py`; rows are of any type, the hash is any function of the rows
of a binary.  Not modelled: reading HDF5, and that Python (from 3.10 on) hashes NaN objects by identity (the read columns hold texts by default); pandas does not
call the function for a group-by without groups.  `ParseProps.v` proves C191: the visited groups are a permutation of the binaries with their evolutions for all
chunks (`visited_perm`), and the counter of a list of groups has, for each hash, the first label and the number of groups.  Findings: binaries whose rows are
apart are counted more than once, and as the results are put under the first label, entries of two evolutions may overwrite each other (`C191_contiguous_refuted`).

### The script of the pipeline

`RunScriptModel.v` models `create_csv_and_slurm_job_files` of `bin/posydon-setup-pipeline` with `expand_runfile`, `get_step_kwargs`, `has_substep` and the condition
of `create_cleanup_slurm_job`; the script is the list of submitted jobs with what they wait for.  `create_csv` and `slurm_job` are one arbitrary function that may
raise; the contents of slurm files, the list of created files and the text of the script are left out.  `RunScriptProps.v` proves C192 by an invariant over the
steps.  Findings: nothing but the pipeline's cleanup waits for a cleanup, so the next step starts while the logs of the last are still being combined (also that
is part of C192: a step waits for the step before it only); sections of steps switched off are needed (`C192_sections`); with nothing to do there is an
UnboundLocalError (`C192_nothing`); a set listed twice stays in the list (`C192_twice_refuted`).

### The tasks of the pipeline

`PipeTasksModel.v` models `create_csv` of `bin/posydon-setup-pipeline` for all steps but step_2: paths are lists of parts, rows lists of columns.  Directories made
or noted as new, messages and `get_new_grid_name` (a parameter) are left out.  `PipeTasksProps.v` proves C193 from a description of the rows of a table
(`table_in`).  Findings: the checks of step 4 look for profile interpolators and the checks of step 5 for initial-final interpolators (`C193_checks4_refuted`,
`C193_checks5_refuted`; with DROP_MISSING_FILES they are dropped without need); the interpolators of several slices of a type overwrite each other
(`C193_overwrite_refuted`); the list of files made by plots keeps those of dropped tasks.

### The tasks of combining slices

`CombineTasksModel.v` models step_2 of `create_csv` and `get_new_grid_name`, with `os.path.normpath` on lists of parts as a parameter; cells without a value are
left out of the columns.  `CombineTasksProps.v` proves C194; `C194_chain` takes the files which step 1 makes from the model of C193.  Finding: the files made by
step 1 are noted in normal form, the slices of step 2 are not, so with DROP_MISSING_FILES and a PATH_TO_GRIDS such as "." or "./grids" all grids of step 2 that do
not exist yet are dropped (`C194_relative_refuted`).

### The inlists of a grid of binaries

`StaticInlistModel.v` models `construct_static_inlist` of `bin/posydon-setup-grid` for `single_star_grid = False`.  Reading a section of a file
(`clean_inlist_file`) is a parameter, the inlists are dicts, and the text written is left out.  `StaticInlistProps.v` proves C195 with relations for the
parameters taken from a file (`taken`), from all files of a section (`contents`) and from the files of a step of the formation of a star (`step_contents`);
`own` lists the parameters which the tool sets itself.  Not modelled: grids of single stars, `find_inlist_from_scenario` (git), `make_executables`.

### The call of posydon-run-grid

`CmdLineModel.v` models `construct_command_line` of `bin/posydon-setup-grid` as a list of words, and `parse_commandline` of `bin/posydon-run-grid` with the part of
argparse that these words need (options, values up to the next option, numbers of values, required options).  `CmdLineProps.v` proves the round trip C196.
Findings: None for `--psycris-inifile` arrives as the text "None", so the check of run-grid for dynamic grids never fires (`C196_psycris_refuted`); the options
`--mesa-star1-inlist-project` and `--mesa-star2-inlist-project` are declared optional, but without them `'None' in None` is a TypeError (`C196_optional_refuted`).
