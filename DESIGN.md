# Formal model of pywr-next in Coq

## Technique

The code under `/repo` is read as text and transcribed, function by function, into total Gallina
functions in `/verif/rocq/theories`. Each definition cites the file and lines it models and says
what it simplifies. Properties are stated in the `Props_*.v` files in terms of small independent
specifications (`*Spec.v`) and proved by induction, invariants and refinement (`*Lemmas.v`); there
is no bounded search. Beside each theorem an `Example` shows a concrete case that meets its
hypotheses, and usually a near miss that does not meet its conclusion.

Where the code does not have a property, a theorem with suffix `_refuted` exhibits a concrete
reachable counterexample and a theorem with suffix `_partial` proves the part that does hold.

Layout: `X.v` is a model of code, `XSpec.v` the vocabulary the theorems are stated in, `XLemmas.v`
the proofs, `Props_X.v` the theorems.

## Trusted base

* Coq 8.16.1's kernel (and `coqchk`), including `vm_compute` for closed computations in examples
  and refutations.
* `Print Assumptions` is printed after every theorem of the `Props_*.v` files. For every theorem
  named in `MANIFEST.json` except those about the interior point method (C62, C63, C64, C65) and doubles (C81) it says
  `Closed under the global context`: no axiom is used, neither of the standard library nor of our
  own, and numbers are `Q`, `Z` and `nat`. The theorems of C62 to C64 are about square roots, so they
  use the real numbers of the standard library and `Print Assumptions` lists, for each of them, a
  subset of `ClassicalDedekindReals.sig_forall_dec`, `ClassicalDedekindReals.sig_not_dec` and
  `FunctionalExtensionality.functional_extensionality_dep`, the three axioms the standard library
  builds its real numbers on. The theorems of C81 on rounding errors use Flocq, and those of C51 in
  `Props_Radial.v` logarithms and roots; for them `Print Assumptions` lists these and the standard
  library's `Classical_Prop.classic`; Flocq adds no axiom of its own. (`vcheck` lists the axioms declared inside library files that are
  loaded, such as `ssr.ssrunder`; no theorem depends on them.)
* That the model's definitions say what the cited Rust code does. This is the part no proof
  assistant checks. It was tested by editing the model the way a bug would change the program and
  seeing which theorems fail (`seeded/LOG.jsonl`). The log has no line for an edit after which
  the lemmas no longer type-check, such as one that leaves a section variable unused: such an edit
  tests nothing.
* The line numbers in the comments. A script compared the 1196 citations with `/repo`: each file and
  range exists, and where a comment names a symbol right after the range, the symbol occurs in it.
  A first pass corrected 22 of them; it did not see the form `file.rs:a-b`, where a second pass found
  35 wrong and corrected about 170 by comparing each range with the lines of the definition it names
  (the definitions themselves agreed with the code). Ranges without a symbol were only looked at by
  their first and last line, so some may be a few lines off.
* That the solver returns a solution that is feasible (within exact arithmetic) for the linear
  programme it was given, or an error; optimality is assumed only where a theorem says so.
  (For the interior point solver C63 proves this, within its tolerances, from the code of `ipm-simd`.)

## General simplifications

* `f64` is modelled by exact rationals `Q` (real numbers in the interior point method): no rounding, overflow, NaN or infinity, except where a
  definition models the check for them explicitly, and in `Float64.v`, which models the functions most
  exposed to them with IEEE 754 doubles (C81). Equality of values is `Qeq` (`==`).
* `usize`, `u64` and `i64` counters are modelled by `nat`/`Z` without overflow unless a definition
  says so (the casts in array lookups, `u8` fields of model files and `u64` products are modelled).
* `HashMap` is modelled by a function or association list; iteration order is a parameter where it
  can be observed (the order of mutually exclusive rows in the linear programme).
* Panics and `Err` are explicit constructors of the result types.
* Dates are civil date-times in the proleptic Gregorian calendar, durations nanoseconds; jiff's
  calendar operations are modelled explicitly in `Calendar.v`.
* `while` loops run on fuel that is proved sufficient.

## What is modelled

| Model | Code |
|---|---|
| `Scenario.v` | pywr-core/src/scenario.rs |
| `Calendar.v`, `Timestep.v` | jiff's civil dates as used; pywr-core/src/timestep.rs |
| `Network.v`, `NetworkBuild.v` | network.rs (builder), node.rs, edge.rs, aggregated_node.rs, virtual_storage.rs (builders and limits) |
| `Lp.v` | solvers/builder.rs, solvers/col_edge_map.rs: columns, all row kinds, fixed and per-step bounds, objective, dynamic coefficients |
| `NetState.v` | state/*.rs, before-phase of storage and virtual storage, write-back of a solution |
| `ParamBuild.v`, `ParamEval.v` | parameters/mod.rs (building, scheduling, evaluating), metric.rs (resolution) |
| `ParamsTemporal.v` | parameters/delay.rs, rolling.rs, threshold.rs, multi_threshold.rs, asymmetric.rs and difference.rs |
| `ControlCurves.v` | parameters/interpolate.rs, parameters/control_curves/ |
| `Profiles.v` | parameters/profiles/ |
| `Lookups.v` | parameters/array.rs, activation_function.rs, constant.rs, offset.rs; network.rs (setting variables) |
| `AggFuncs.v` | agg_funcs/mod.rs |
| `Aggregator.v`, `Memory.v` | recorders/aggregator, recorders/metric_set.rs, recorders/memory.rs |
| `Run.v`, `MultiNetwork.v` | network.rs (steps), models/simple.rs, models/multi.rs |
| `SchemaNodes.v`, `SchemaMetrics.v` | pywr-schema/src/nodes/*.rs, edge.rs, network.rs; metrics they make |
| `Formulas.v` | parameters/muskingum.rs, hydropower.rs, difference.rs, division.rs, polynomial.rs, min.rs, max.rs, negative*.rs, discount_factor.rs, deficit.rs, interpolated.rs, vector.rs, indexed_array.rs |
| `SchemaRun.v` | the order of parameter evaluation and solve in network.rs, for the parameters a model file's nodes create |
| `Tables.v` | pywr-schema/src/data_tables/scalar.rs, vec.rs, mod.rs (the csv crate's reader as a list of records with its check for unequal lengths; number parsing a parameter; files and checksums are in `DataFiles.v`) |
| `Timeseries.v` | pywr-schema/src/timeseries/align_and_resample.rs, mod.rs (polars' operations as documented; parsing of files not modelled); pywr-core/src/timestep.rs 60-97 |
| `IpmCholesky.v` | ipm-common/src/lib.rs; ipm-simd/src/path_following_direct.rs 72-164 (factorisation and substitution, one lane; NaN not modelled) |
| `IpmStep.v` | ipm-simd/src/common.rs, path_following_direct.rs 166-268, lib.rs (the step on all lanes and the loop; `-0.0` in the step length not modelled). The OpenCL variant is in `IpmOcl.v` |
| `IpmLp.v` | pywr-core/src/solvers/ipm_simd/mod.rs (the programme, its update, chunks of four scenarios; rational numbers up to the call of the method, reals inside) |
| `Outputs.v` | pywr-core/src/recorders/csv.rs, hdf.rs (files as lists of records or arrays; printing of numbers and dates a parameter; file system errors, HDF5 attributes and names with a slash not modelled); pywr-schema/src/outputs/csv.rs 81-82 |
| `SchemaVirtual.v` | pywr-schema/src/nodes/virtual_nodes/aggregated.rs, virtual_storage.rs (`create_metric`); pywr-core/src/metric.rs 191-290 (flows of aggregated nodes, volumes). The nodes themselves are added in `SchemaNodes.v` |
| `MetricSets.v` | pywr-schema/src/metric_sets/mod.rs, metric.rs (`Metric::load_as_output` and what it calls), agg_funcs.rs; of parameters only name, type and phase; tables and time series as functions; Python parameters and functions not modelled |
| `V1Convert.v` | pywr-schema/src/v1.rs, network.rs (`from_v1`), metric.rs, parameters/mod.rs, timeseries/mod.rs, edge.rs, nodes/slots.rs (conversion); of each type of node and parameter the values in order of conversion, the rest as a text |
| `SchemaParams.v` | pywr-schema/src/parameters/*.rs (`add_to_network` of 31 types), network.rs 600-632, metric.rs (`load` of parameter references); a run as the equations its parameters satisfy; values of profiles literal; Python, hydropower, RBF, table array and constant scenario parameters not modelled |
| `Backends.v` | pywr-core/src/solvers/builder.rs (arrays, updates), highs/mod.rs, clp/mod.rs, cbc/mod.rs, microlp/mod.rs, network.rs 651-695, 953-986; the libraries as the problem they hold and an arbitrary answer; warm starts, settings, timings and parallel solvers (IPM) elsewhere or not modelled |
| `SchemaDomain.v` | pywr-schema/src/model.rs 70-350, 512-531, 554-582 (scenarios and time of a file, conversion from v1); parsing of JSON and of date strings not modelled |
| `SchemaMulti.v` | pywr-schema/src/model.rs 646-978; loading one network and one metric are arbitrary functions |
| `Visit.v` | pywr-schema/src/visit.rs, pywr-schema-macros/src/lib.rs 1-590, network.rs 172-304, parameters/python.rs 142-194, edge.rs 45-55, metric.rs 372-381, 472-481, 503-512, 655-663, timeseries visitors; component types are values built from the kinds of field the visitors tell apart, not listed one by one |
| `PyParams.v` | pywr-core/src/parameters/py.rs (all but the resolution of metrics, which ParamBuild.v models), state/mod.rs 191-235, pywr-schema/src/py_utils.rs 64-140, parameters/python.rs 218-300; pyo3's conversions are modelled from its documentation, the interpreter and the user's code are arbitrary functions, the interpreter runs one call at a time |
| `IpmOcl.v` | ipm-ocl/src (the kernels in .cl files and the host code in lib.rs), pywr-core/src/solvers/ipm_ocl/mod.rs; real numbers for f32 and f64, the programme in a buffer is the one copied to it, work items interleave between iterations of the kernel's loop (they share no cell, so finer interleavings are the same) and each comes to its end |
| `SchemaOutputs.v` | pywr-schema/src/outputs (all), the builders and results of pywr-core/src/recorders, pywr-core/src/network.rs 486-515, 631-647, 717-755, 1076-1102, 2039-2053, 2197-2210; two outputs that write the same file are not modelled (each has its own), nor are Python aggregation functions |
| `Serde.v`, `SerdeTypes.v` | the derived Serialize and Deserialize of every type in a model file (citation at each); serde_json as trees: the text, the rounding of floats when text is read (the crate is used without `float_roundtrip`) and the limit of 128 levels are not modelled; dates are those with years of four digits |
| `Ffi.v` | all `unsafe` blocks of highs/mod.rs, clp/mod.rs and cbc/mod.rs that are not dead code; what the libraries read and write is taken from their C headers; index types are [nat] (casts to 32 bits exact); the OpenCL solver's buffers are in C76 |
| `Launch.v` | pywr-cli/src/main.rs (except `run_random` and the export of the schema), the Python `run` functions of pywr-core/src/models, pywr-python/pywr, solvers/*/settings.rs; clap and click as records of options, rayon's pool as its size and a schedule, parsing and conversion as parameters |
| `Float64.v` | the functions of state/storage.rs, node.rs, virtual_storage.rs, interpolate.rs, threshold.rs, agg_funcs/mod.rs and timestep.rs named in C81, in IEEE 754 double precision with rounding to nearest even; the payload of a NaN is not kept, and parts of a second are left out |
| `DataFiles.v` | digest.rs, paths and loading of tables, time series (polars and pandas) and HDF5 arrays, and their conversion from version 1; the digests, the csv crate, polars, pandas and HDF5 are parameters; letters outside ASCII are not put into lower case |
| `V1Components.v` | v1.rs and the `TryFromV1` of the parameter and node types; the conversion of a value is a parameter; hydropower targets and types that are refused are not modelled |
| `ParamTiers.v` | the `build`, `setup`, `compute`, `before` and `after` of the core parameters that SchemaParams.v loads; errors are not told apart |
| `WholeRun.v` | `step`, `compute_components` and `after` of network.rs with the metrics of metric.rs that read flows and volumes; every metric of a node is read once, before the programme is updated; a metric of a node's maximum flow and transfers between networks are left out |
| `NodeParams.v` | the parameters made by delay, river (delay), reservoir and piecewise storage nodes |
| `NodeSpecial.v` | the parameters made by rivers with Muskingum routing, by turbines and, for their deficit, by outputs (without limits of the flow, which turbines do not set); of parameters with several values only those of Muskingum routing are read |
| `Props_Deficit.v` | deficits of output nodes; the maximum flow of the node is read as the metric of its declaration |
| `Radial.v` | rbf.rs and the functions of pywr-schema/src/parameters/profiles.rs over real numbers with infinities and NaN: all radial functions, the estimate of epsilon; the linear solver is any that solves systems of numbers; rounding and overflow not modelled |
| `Recorders.v`, `Props_Recorders.v` | array and assertion recorders in a run; the values of metrics and the comparison of floats are functions that the theorems quantify over |
| `Props_Float64Bound.v` | that the largest number of the exact models is the largest double (C81) |
| `ScenarioConst.v`, `Props_ScenarioConst.v` | the building of parameters with a value for each member of a scenario group (C03) |
| `NodeAttrs.v`, `Props_NodeAttrs.v` | the builders of the metrics of nodes, virtual storages and aggregated nodes; the resolution of a metric is a function that the theorems quantify over (modelled in `ParamBuild.v`) |
| `VariablesU32.v`, `Props_VariablesU32.v` | the integer variables of parameters (the days of radial basis profiles) set and read through the network (C51) |
| `ParamIndexRef.v`, `Props_ParamIndexRef.v` | the resolution of integer metrics as written, and exactly where the table that C19, C20, C84 and all that builds on them (the parameters of nodes, whole runs) share for all metrics departs from it. That table was kept: networks with an integer metric that asks a constant or simple parameter for another value than that before the solve are outside those theorems |

## What is not modelled

* Floating point: rounding, NaN and infinities, outside the functions of `Float64.v` (findings
  elsewhere that depend on them are listed as such and not proved).
* What the solvers CLP, HiGHS and CBC do with the problem they are given (`Backends.v` models how it
  is given to them), the SIMD instructions, the OpenCL runtime and the device.
* The Python interpreter and the user's Python code (arbitrary functions in `PyParams.v`), the other Python
  bindings; reading CSV and HDF5 files, Arrow, the bytes of output files; data frames;
  logging and timing.
* JSON parsing, and the schema of parameters and nodes except where a
  model says otherwise (fields that wrap when they are read from a file).
* Model files: time series and parameter references are metrics with an arbitrary value per step.

## Status per property

* **C01** Full scenario enumeration is complete and duplicate free: proved, in `Props_Scenario.v`: `C01_full_enumeration`, `C01_scenario_count`, `C01_labels`. usize overflow of the product of sizes is not modelled. Method: model the mixed radix decode loop; prove equality with the independently defined cartesian product list.
* **C02** Subsetting a scenario domain simulates exactly the requested scenarios: proved, in `Props_Scenario.v`: `C02_subset_enumeration`, `C02_subset_as_asked`, `C02_builder_accepts`. Method: filter semantics of the same loop; NoDup and numbering by induction.
* **C03** Scenario data lookup is unaffected by subsetting: proved, in `Props_Scenario.v`, `Props_ScenarioConst.v`: `C03_lookup_unaffected_by_subset`, `C03_lookup_unaffected_by_combinations`, `C03_constant_built`, `C03_constant_in_subsets`, `C03_constant_in_combinations`. Index subsets must be in range: the code does not validate them and array parameters panic otherwise. Method: relation between simulation index, scenario map and schema index; data lookup functions.
* **C04** User supplied scenario combinations run exactly as listed: proved, in `Props_Scenario.v`: `C04_combinations_run_as_listed`. Method: combination branch of build.
* **C05** Schema scenario id matches the id of the same scenario in a full run: partial, in `Props_Scenario.v`: `C05_schema_id_sliced_partial`, `C05_schema_id_combinations_refuted`. True for sliced runs; false for explicit combinations, where schema_id treats the first group as fastest varying. Method: expected to be false: schema_id uses the opposite radix order; refutation plus the true part (ids are distinct).
* **C06** Fixed-duration time-steps tile the simulation period: proved, in `Props_Timestep.v`: `C06_fixed_steps_tile`, `C06_empty_period_rejected`. jiff's date arithmetic is modelled from its documentation; year limits are not modelled. Method: loop with fuel shown sufficient; dates as integers (seconds).
* **C07** Frequency based time-steps tile the simulation period: proved, in `Props_Timestep.v`: `C07_frequency_steps_tile`, `C07_month_steps_calendar`, `C07_non_positive_rejected`, `C07_fixed_step_duration`. Parsing of the frequency string is polars code and is not modelled. Method: same, for an arbitrary strictly increasing span function.
* **C08** Day-of-year index names the same calendar day every year: proved, in `Props_Timestep.v`: `C08_index_is_leap_year_position`, `C08_index_range`, `C08_index_injective`, `C08_only_feb29_has_59`, `C08_next_day`. Method: leap year and day-of-year arithmetic.
* **C09** Solved flows conserve mass at every link: proved, in `Props_Lp.v`: `C09_link_mass_balance`, `C09_edge_flows_non_negative`. for every well-formed network (every built one is: C37_built_well_formed), every history of updates and every feasible column vector. Method: columns as equivalence classes of edges built by the code's fold; feasibility of the built rows implies balance.
* **C10** Column sharing loses no allocation: proved, in `Props_Lp.v`: `C10_every_edge_has_a_column`, `C10_shared_columns_are_equal_flows`, `C10_programme_exists`, `C10_solutions_are_allocations`, `C10_allocations_are_solutions`. the equivalence with the one-variable-per-edge model is stated for networks whose aggregated nodes carry limits only; factors and exclusivity are C38/C39. Method: edges sharing a column are connected by a chain of one-in/one-out links.
* **C11** Node flow limits are enforced: proved, in `Props_Lp.v`: `C11_node_limits`, `C11_aggregated_node_limits`, `C11_virtual_storage_limits`. members of mutually exclusive sets: C39_member_limits (constant limits). Method: row builder semantics, fixed and variable rows.
* **C12** Constraint bounds never depend on earlier time-steps: proved, in `Props_Lp.v`: `C12_no_trace_of_earlier_steps`, `C12_histories_are_indistinguishable`, `C10_allocations_are_solutions`. the update of any earlier-updated programme equals the update of the fresh one; the tightest bound follows from C10/C11. Method: fold of masked reset and tightening over arbitrary histories.
* **C13** The objective prices every unit of flow with its node costs: proved, in `Props_Lp.v`: `C13_objective_is_edge_costs`, `C13_objective_is_node_costs`, `C13_node_cost`. Method: linear algebra over edge lists.
* **C14** Storage volume stays within bounds and balances: proved, in `Props_NetState.v`: `C14_storage_balance`, `C14_never_panics`, `C14_volume_history`. for storages outside mutually exclusive sets (a storage in an exclusive set is not bounded by the programme, see C39); any number of time-steps. Method: bounds row implies volume bounds, induction over steps.
* **C15** Flows written to the state reproduce the solution: proved, in `Props_NetState.v`: `C15_edge_flows`, `C15_node_flows`, `C15_network_balance`, `C15_network_balance_written`, `C15_write_back_succeeds`. any previous state and any flows. Method: fold of add_flow over edges after reset.
* **C16** Virtual storage accounts for exactly its nodes' flows: proved, in `Props_NetState.v`: `C16_virtual_storage_use`, `C16_any_flows`. the start volume is assumed within its limits: C18_weekly_initial_use_panics_refuted shows a virtual storage that leaves them by itself. Method: derived state update.
* **C17** Virtual storage resets exactly when configured: proved, in `Props_NetState.v`: `C17_resets`, `C17_reset_times_exist`, `C17_reset_times_unique`, `C17_day_of_year_missed_refuted`. for virtual storages without rolling window (C18 has the others); the refuted theorem records that a day-of-year reset is skipped when no time-step starts on that day. Method: trace semantics of before.
* **C18** Rolling virtual storage tracks the last window of flows: partial, in `Props_NetState.v`: `C18_rolling_window_partial`, `C18_varying_steps_refuted`, `C18_weekly_initial_use_panics_refuted`. proved for time-steps of one length from a reset on; for varying lengths the property is false of the code, and the use before the reset is returned once per day instead of once. Method: queue invariant.
* **C19** Parameter schedule respects dependencies: partial, in `Props_Param.v`: `C19_equations_partial`, `C19_declaration_order_partial`, `C19_node_max_flow_read`, `C19_classes_exist`, `C19_every_parameter_once`, `C19_references_first`, `C19_indices_in_range`, `C19_node_max_flow_refuted`. Proved for parameters and network metrics without metrics on a node's maximum flow; with them the result does depend on the declaration order (C19_node_max_flow_refuted). The table of metric resolution used here refuses an integer metric that asks for another value than that before the solve of a constant or simple parameter; the code accepts it (C21_shared_table_exact delimits the difference), so such metrics are outside what is proved. Method: build loop over passes; topological order and confluence.
* **C20** Parameter build succeeds exactly on acyclic complete definitions: partial, in `Props_Param.v`: `C20_terminates`, `C20_never_panics`, `C20_success_means_well_formed`, `C20_succeeds_iff_partial`, `C20_order_does_not_matter`, `C20_duplicate_iff`, `C20_duplicate_name`, `C20_not_found`, `C20_circular`, `C20_missing_masked_refuted`, `C20_feedback_rejected_refuted`. The two refutations show what is not promised: a cycle hides an undefined reference, and feedback through the previous time-step counts as a cycle. The table of metric resolution used here refuses an integer metric that asks for another value than that before the solve of a constant or simple parameter; the code accepts it (C21_shared_table_exact delimits the difference), so such metrics are outside what is proved. Method: termination measure and failure classification.
* **C21** Before-phase consumers never read values of the current after-phase: partial, in `Props_Param.v`, `Props_ParamIndexRef.v`: `C21_before_consumers`, `C21_current_value_rejected_partial`, `C21_rejected_at_build_partial`, `C21_previous_value`, `C21_initial_value`, `C21_integer_before_consumers`, `C21_integer_rejected_partial`, `C21_integer_current_value_refuted`, `C21_shared_table_exact`, `C21_integer_as_before`. Rejection of requests for a current after-phase value is proved for floating-point metrics, and for integer metrics of general parameters. It fails in the code for integer metrics of constant and simple parameters (refuted). What is read before the solve is proved for both. There the code gives the value before the solve (C21_integer_as_before).
* **C22** Delay parameter reproduces the past exactly: proved, in `Props_Temporal.v`: `C22_general`, `C22_simple`, `C22_general_zero`, `C22_in_model`. Delay parameter over every history, both variants, and inside a whole network run. Method: queue simulation.
* **C23** Rolling parameter aggregates exactly the trailing window: proved, in `Props_Temporal.v`: `C23_general`, `C23_simple`, `C23_window`, `C23_minimum_beyond_window`, `C23_in_model`. Rolling parameter with any aggregation function, both variants, and inside a whole network run. If the minimum exceeds the window the initial value is returned for ever. Method: queue simulation.
* **C24** Ratchet thresholds never release; switch has hysteresis: proved, in `Props_Temporal.v`: `C24_threshold_ratchet`, `C24_threshold_never_releases`, `C24_threshold_plain`, `C24_multi_threshold_ratchet`, `C24_multi_threshold_plain`, `C24_first_met_unique`, `C24_switch`. Threshold, multi-threshold and asymmetric switch over every history. Method: trace specifications.
* **C25** Control curve index identifies the zone: proved, in `Props_Curves.v`: `C25_index_counts_curves_above`, `C25_index_is_the_zone`, `C25_index_monotone`, `C25_value_of_the_zone`, `C25_missing_value_is_an_error`, `C25_lower_curves_not_read`. Method: list induction over Q.
* **C26** Control curve interpolation stays within the neighbouring values: proved, in `Props_Curves.v`: `C26_between_and_on_the_line`, `C26_exact_at_curves`, `C26_exact_when_full`, `C26_exact_when_empty`, `C26_monotone`, `C26_piecewise`, `C26_too_few_values_refuted`, `C26_narrow_zone_not_on_the_line_refuted`. Refutations record the panic with too few values and the jump within zones narrower than the tolerance. Method: list induction over Q.
* **C27** Linear interpolation is exact at points and bounded between them: proved, in `Props_Curves.v`: `C27_exact_at_points`, `C27_between_points`, `C27_below_the_range`, `C27_above_the_range`, `C27_too_few_points`, `C27_disorder_reported`, `C27_disorder_unnoticed_refuted`. Method: list induction over Q.
* **C28** Control curve apportionment conserves the value: proved, in `Props_Curves.v`: `C28_shares`, `C28_volumes_between_curves`. Method: algebra over Q.
* **C29** Profiles are total, periodic and bounded: partial, in `Props_Profiles.v`: `C29_daily`, `C29_daily_from_file`, `C29_diurnal`, `C29_weekly_lengths`, `C29_weekly`, `C29_monthly`, `C29_weekly_between`, `C29_monthly_first_between`, `C29_monthly_last_between_partial`, `C29_monthly_last_overshoots_refuted`, `C29_same_day_every_year_partial`, `C29_february_differs_refuted`. The code breaks the rest: a monthly profile interpolated to the last day goes beyond the month's value after midnight on the last day, and interpolated Februaries differ between leap and other years. Both are proved as refutations. Method: index bounds and convexity.
* **C30** Uniform drawdown profile falls uniformly: partial, in `Props_Profiles.v`: `C30_uniform_after_february`, `C30_falls_evenly`, `C30_range`, `C30_uniform_early_reset_partial`, `C30_early_reset_a_day_ahead`, `C30_falls_evenly_refuted`, `C30_residual_wraps_refuted`, `C30_from_file`. Proved in full for resets from 1 March; for resets in January and February the code is one day ahead from 1 March of years that are not leap years (proved). Method: calendar arithmetic; expected to be false for resets on or before 29 February.
* **C31** Aggregated recorder periods tile time and conserve totals: proved, in `Props_Recorder.v`: `C31_periods_cover_their_values`, `C31_contiguous`, `C31_calendar_boundaries`, `C31_means_conserve`, `C31_sums_conserve`, `C31_never_panics`, `C31_short_steps`, `C31_long_step_refuted`, `C31_sum_of_cut_value_refuted`, `C31_negative_days_refuted`. Refutations record that steps over several period starts panic, that sums count a cut value twice and that negative day counts never end. Method: stream invariant.
* **C32** No recorded value is lost at the end of a run: partial, in `Props_Recorder.v`: `C32_flat_final_partial`, `C32_unending_final_partial`, `C32_nested_unending_final_partial`, `C32_final_duration_refuted`, `C32_completed_parent_lost_refuted`, `C32_single_child_value_refuted`. The final value of a flat or run-long aggregator contains every value held back; the code violates the rest: the final duration is always too short, and periodic parents lose values at the end. Method: expected to be false for nested aggregators; refutations plus the true part.
* **C33** Aggregation functions are order independent and bounded: proved, in `Props_Agg.v`: `C33_order_f64`, `C33_order_periods`, `C33_order_u64`, `C33_order_u64_checked_refuted`, `C33_sum`, `C33_product`, `C33_mean`, `C33_mean_between`, `C33_min_attained`, `C33_max_attained`, `C33_count_non_zero`, `C33_count_func`, `C33_any_non_zero`, `C33_empty`, `C33_empty_u64`, `C33_periods_mean`, `C33_periods_mean_none`, `C33_periods_mean_between`, `C33_periods_mean_equal`, `C33_periods_other`, `C33_u64_sum`, `C33_u64_product`, `C33_u64_product_zero`, `C33_u64_min_max`, `C33_u64_any_all`. Exact arithmetic. Integer products in a build with overflow checks panic or not depending on the order when a zero is present (C33_order_u64_checked_refuted). Method: permutation induction.
* **C34** Memory recorder keeps scenario, time and metric apart: proved, in `Props_Recorder.v`: `C34_stores_every_step`, `C34_stores_every_period`, `C34_one_entry_per_scenario`, `C34_recording_succeeds`, `C34_no_metrics_refuted`, `C34_long_export`, `C34_sum_orders_agree`, `C34_mixed_orders_differ_refuted`. The metric_set column of the export holds the recorder's name, as in the code; a metric set without metrics panics. Method: list transposition.
* **C35** Inter-network transfers deliver the right network's value: proved, in `Props_Multi.v`: `C35_build`, `C35_step`, `C35_run`, `C35_never_panics`. Building and stepping of a single network, metric resolution and evaluation are parameters of the theorems; transfers, relative indices, states and the run loop are modelled. On a first step without an initial value, a network listed later supplies the metric of its set-up state. Method: relative index arithmetic and run semantics.
* **C36** Scenarios are independent and parallel execution is equivalent to sequential: proved, in `Props_Run.v`: `C36_parallel_step`, `C36_parallel_run`, `C36_runs_end`, `C36_multi_scenario_step`, `C36_selection`, `C36_selection_renumbered`. The work on one scenario is a list of abstract operations on that scenario's data only, as the borrow rules guarantee; schedules are arbitrary interleavings. Errors become panics in parallel steps. The multi-scenario solver is assumed to solve scenarios separately. Method: per scenario step function; arbitrary schedule of scenario tasks.
* **C37** Network names resolve to what was declared: proved, in `Props_Network.v`: `C37_nodes_as_declared`, `C37_edges_as_declared`, `C37_names_resolve`, `C37_references_as_declared`, `C37_built_well_formed`, `C37_builds_iff_valid`. NetworkBuilder::build for nodes, edges, aggregated nodes and virtual storages; metrics are taken as already resolved. Method: builder folds.
* **C38** Aggregated node proportions and ratios hold in every solution: partial, in `Props_LpRel.v`: `C38_constant_proportions`, `C38_constant_ratios`, `C38_constant_coefficients`, `C38_dynamic_proportions_partial`, `C38_dynamic_ratios_partial`, `C38_dynamic_coefficients_partial`, `C38_invalid_factors_rejected_refuted`, `C38_dynamic_storage_refuted`, `C38_dynamic_shared_row_refuted`, `C38_dynamic_rhs_refuted`. constant factors in full; varying factors when the groups share no decision variable and hold no storage; the remaining cases are refuted by witnesses. Method: row semantics.
* **C39** Mutual exclusivity is enforced: partial, in `Props_LpRel.v`: `C39_at_most_max_active`, `C39_at_least_min_active_partial`, `C39_member_limits`, `C39_dynamic_limits_refuted`, `C39_min_active_refuted`. constant limits: upper count in full, lower count when minimum flows are not 0; refuted for varying limits and for zero minimum flows. Method: expected to be false for dynamic bounds; refutation plus the constant-bound case.
* **C40** Loss links lose the configured share: partial, in `Props_Schema.v`: `C40_loss_link`, `C40_no_loss_factor`, `C40_varying_loss_partial`, `C40_factor_one_ignored_refuted`. Constant factors: proved. Factors that vary: proved when the aggregated node does not share a row variable with another (see C38). A gross factor of 1 or more is ignored (refuted). Method: composition of aggregated node rows and sub-node layout.
* **C41** River split follows the configured proportions: partial, in `Props_Schema.v`: `C41_split_against_bypass_partial`, `C41_one_split`, `C41_two_splits_refuted`. One split: proved. Two or more: each split is proportional to the bypass only, so the configured shares are not met (refuted). Method: expected to be false for two or more splits.
* **C42** Muskingum routing conserves mass: partial, in `Props_Routing.v`: `C42_continuity`, `C42_steady_start`, `C42_steady_state`, `C42_outflow_in_range`, `C42_mass`, `C42_river`, `C42_river_mass`, `C42_dry_reach_stays_dry`, `C42_river_stays_dry`, `C42_varying_weight_refuted`. Proved for the parameter and for the river nodes of a model file when travel time and weight are constant. With varying ones the mass balance fails (refuted); the continuity equation of each step still holds. Method: field arithmetic over Q and induction over the run.
* **C43** Piecewise storage partitions the reservoir: proved, in `Props_Piecewise.v`: `C43_stores`, `C43_capacities`, `C43_minimum`, `C43_initial`, `C43_excess_is_dropped`, `C43_unordered_curves_refuted`, `C43_no_curves_cut_off_refuted`. Ascending curves, as the property says. The code checks neither their order nor that the initial volume fits. Method: telescoping sums.
* **C44** Schema edges connect every connector pair: proved, in `Props_SchemaEdges.v`: `C44_every_pair_once`, `C44_no_other_edges`, `C44_edge_metric`. Method: list product.
* **C45** Array lookups clamp and never read the wrong row: partial, in `Props_Lookups.v`: `C45_offset_clamped`, `C45_no_offset`, `C45_empty_is_an_error`, `C45_never_outside`, `C45_two_dimensions`, `C45_scenario_column`, `C45_huge_offset_refuted`, `C45_vector`. Proved for all arrays, steps and offsets whose sum fits in a signed 32-bit number; beyond that the code panics or, built without overflow checks, reads the wrong end (C45_huge_offset_refuted). Method: integer arithmetic including the i32/usize casts.
* **C46** Hydropower target flow produces the target power: partial, in `Props_Power.v`: `C46_power`, `C46_target`, `C46_negative_target`, `C46_minimum_head`, `C46_limits`, `C46_turbine`, `C46_turbine_without_head`, `C46_limits_always_refuted`. The minimum flow is not respected at or below the minimum head, nor the maximum when it is below the minimum (refuted); everything else is proved, for the parameter and for turbine nodes. Method: field arithmetic over Q.
* **C47** Decision variables stay within the activation function's range: partial, in `Props_Lookups.v`: `C47_stays_in_range`, `C47_reversed_bounds_panic`, `C47_unit`, `C47_rectifier`, `C47_binary_step`, `C47_logistic`, `C47_logistic_monotone`, `C47_one_scenario_only`, `C47_all_scenarios`, `C47_constants_can_be_set`, `C47_wrong_number_of_values`, `C47_constant_ignores_variables`, `C47_constant_out_of_range_refuted`, `C47_offset_panics_refuted`, `C47_value_used`. The stored value is always in range and scenarios and parameters are isolated; but the stored value never reaches the run: constants are computed once at set-up, and offset parameters have no state and panic. Logistic proved for any positive (monotone) function in place of exp. Method: order arithmetic; the logistic case uses exp, over R.
* **C48** Table lookups return the cell addressed by the key: partial, in `Props_Tables.v`: `C48_scalar_lookup_partial`, `C48_index`, `C48_not_an_index`, `C48_vector_lookup`, `C48_loads_partial`, `C48_three_or_four_keys_refuted`, `C48_other_layouts`, `C48_no_value_panics_refuted`, `C48_repeated_key`, `C48_collection`, `C48_reference_partial`. Proved for array tables with one to four keys and scalar tables with one or two keys by row or column or up to two of each. False for scalar tables with three or four keys: the code loads them as two-key tables (C48_three_or_four_keys_refuted, for every file). A table without values panics. Method: Each loader is shown to collect exactly the (key, cell) pairs of the file, the specification saying which cell a key addresses in each layout; a map collected from them answers a key with its last pair. The parsing of numbers is a parameter. False for scalar tables with three and four keys.
* **C49** River gauge costs and limits go to the right sub-node: partial, in `Props_Schema.v`: `C49_mrf_route`, `C49_bypass_costs_nothing`, `C49_bypass_cost_is_lower_limit`, `C49_bypass_cost_refuted`. The mrf limit and cost are proved; the bypass cost is never charged and is used as a lower limit of the mrf route (refuted). Method: expected to be false: the bypass cost is stored as the mrf node's min flow.
* **C50** Aggregated storage volume is consistent: proved, in `Props_NetState.v`: `C50_proportional_volume`, `C50_between_zero_and_one`, `C50_single_store`, `C50_volume_is_total`, `C50_store_proportional`, `C50_virtual_storage_proportional`. Method: sums over Q.
* **C51** Radial basis function profiles pass through their points: partial, in `Props_Profiles.v`, `Props_Radial.v`, `Props_VariablesU32.v`: `C51_through_the_points`, `C51_total_and_periodic`, `C51_conflicting_points_panic`, `C51_set_values`, `C51_set_days`, `C51_day_bounds`, `C51_ordinal_day_refuted`, `C51_all_functions`, `C51_cyclic`, `C51_set_days_of_scenario`, `C51_set_days_everywhere`, `C51_days_refused`, `C51_days_of_profile`, `C51_thin_plate_refuted`, `C51_function_values`, `C51_epsilon`, `C51_function_loaded`. The profile passes through its points, with all functions but the thin plate spline, but counting 1 January as day 0, one day later than the ordinal day; conflicting points panic instead of being reported. A thin plate spline is NaN on the days of its points. Assumes the linear solver answers only with solutions. The theorems of Props_Radial.v are over the real numbers of the standard library (axioms sig_forall_dec, sig_not_dec, functional_extensionality_dep, classic).
* **C52** Link limits and soft constraints: partial, in `Props_Schema.v`: `C52_hard_limits_partial`, `C52_soft_min`, `C52_soft_max`, `C52_soft_max_cannot_be_exceeded`, `C52_hard_max_lost_refuted`. At most one soft constraint: proved. With both, the soft maximum replaces the hard maximum (refuted).
* **C53** Rivers pass on or lose what arrives: partial, in `Props_Schema.v`, `Props_SchemaEdges.v`, `Props_SchemaMore.v`: `C53_river_loss`, `C53_plain_river`, `C53_routed_loss`, `C53_varying_loss_partial`. Constant factors, and varying factors for rivers without routing whose loss shares no row variable with another aggregated node. For a river with loss and routing the reported outflow includes the loss (proved in C53_routed_loss); that it should equal what its edges carry is refuted in C58_routed_loss_refuted.
* **C54** Water treatment works: partial, in `Props_SchemaMore.v`: `C54_treatment_works`, `C54_varying_loss_partial`. Balance, limits, allowance and costs: proved for every treatment works; the loss for constant factors, and for varying factors when the aggregated node shares no row variable with another (see C38).
* **C55** Catchments and abstractions: proved, in `Props_SchemaMore.v`: `C55_catchment`, `C55_abstraction`, `C55_abstraction_slot`. Parts that are members of a mutually exclusive set are excluded by hypothesis (their bounds are proved separately in C39_member_limits).
* **C56** Reservoirs and their attached flows build: partial, in `Props_SchemaMore.v`: `C56_others_build`, `C56_attached_flows`, `C56_surface`, `C56_area_needed`, `C56_evaporation_never_builds`. Every combination without evaporation builds; a reservoir with evaporation can never be built because the evaporation part is created as an input (refutes that part of the claim).
* **C57** Parts of different nodes never share a name: proved, in `Props_SchemaMore.v`: `C57_names_never_collide`, `C57_parts_belong_to_nodes`. All node types of the model.
* **C58** A node's flows are the totals of its edges: partial, in `Props_SchemaEdges.v`: `C58_inflow_is_total_of_edges`, `C58_outflow_is_total_of_edges`, `C58_routed_loss_refuted`. Proved for every node kind; the outflow of a river with loss and routing is refuted.
* **C59** A delay node hands on its inflow after exactly the delay: proved, in `Props_Routing.v`: `C59_delay`, `C59_zero_delay_never_runs`. For positive delays; a delay of zero is accepted and fails in the first step. Method: the queue of C22 composed with the node's parts and the solve, by induction over the run.
* **C60** A time series gives each time-step the data of its period: partial, in `Props_Timeseries.v`: `C60_aligned_partial`, `C60_accepted`, `C60_months_refuted`, `C60_off_the_grid_refuted`, `C60_missing_day_panics_refuted`. Proved for time-steps of a fixed length in hours or days and data whose spacing is the step, finer, or a multiple of it, including that evenly spaced data that covers the time-steps is accepted. False for calendar steps (months), and for coarser data whose spacing is not a multiple of the step; uneven data panics. Method: the polars operations as list functions; rows after sorting and slicing form an arithmetic progression, windows and joins are computed over it by induction.
* **C61** A reference to a time series gives the data it names: partial, in `Props_TimeseriesRefs.v`: `C61_data_sets`, `C61_column_partial`, `C61_scenario_partial`, `C61_value_at_date`, `C61_column_named_like_group_refuted`, `C61_index_then_value_refuted`. Proved, down to the value at a date, when no other reference asks for the same name in the same data set as another kind (column or scenario group) or another use (value or index). False otherwise: the first reference's data is used for both. Method: induction over the references: every stored parameter is what some reference made on its own, and references that agree make the same.
* **C62** Each interior-point step is a damped Newton step that keeps the iterate positive: proved, in `Props_Ipm.v`: `C62_direct_solve`, `C62_newton_step`, `C62_stays_positive`, `C62_gaps_shrink`. Over the real numbers of the standard library (axioms sig_forall_dec, sig_not_dec, functional_extensionality_dep); no rounding. Convergence is not claimed. Method: invariants of the symbolic factorisation (which positions of the factor are stored), the recurrences of Cholesky from the numeric one, positive pivots by a Schur complement argument, then the algebra of the Newton equations.
* **C63** A returned interior-point solution is feasible and optimal within the tolerances: proved, in `Props_Ipm.v`: `C63_near_optimal`. Over the real numbers of the standard library (axioms sig_forall_dec, sig_not_dec, functional_extensionality_dep); no rounding. Method: weak duality with residuals, Cauchy-Schwarz, positivity invariant over the steps.
* **C64** Scenarios solved together by the interior-point solver do not affect each other, nor does an earlier solve: proved, in `Props_Ipm.v`: `C64_lanes_independent`, `C64_buffers_do_not_matter`. Over the real numbers of the standard library (axioms sig_forall_dec, sig_not_dec, functional_extensionality_dep); no rounding. Method: simulation between a joint run and the runs alone; uniqueness of the solution of the normal equations.
* **C65** The interior-point solver gives every scenario feasible, nearly cheapest flows, independent of the other scenarios: partial, in `Props_IpmLp.v`: `C65_programme_well_posed`, `C65_near_best`, `C65_scenarios_independent`, `C65_minimum_flow_ignored_refuted`. Minimum flows (and aggregated nodes) make no difference to this solver: C65_minimum_flow_ignored_refuted. The rest of the statement is proved for networks without a closed group of links and with an edge at every storage; the loop may also end in a panic. Over the real numbers of the standard library (axioms sig_forall_dec, sig_not_dec, functional_extensionality_dep); no rounding. Method: the rows of the programme by induction over the nodes, independence of the balance rows by following edges to a node that is not a link, bounds after an update, translation of C63 from columns to edges, then lanes and chunks through C64.
* **C66** Output files hold every recorded value under its own scenario, metric and time: partial, in `Props_Outputs.v`: `C66_wide_csv`, `C66_long_csv`, `C66_decimal_places`, `C66_hdf5_partial`, `C66_zero_places_refuted`, `C66_hdf5_aggregation_refuted`, `C66_hdf5_names_refuted`, `C66_empty_set_refuted`. Proved for both CSV formats, and for HDF5 with the values of the metrics in each time-step. Refuted parts: HDF5 ignores the aggregator of its metric set; two metrics of one name and attribute, or a node called time, make the HDF5 set-up fail; decimal_places 0 means no rounding; a metric set without metrics makes the wide CSV recorder panic. How numbers and dates are printed is a parameter of the model. Method: the saves of a run as a list of states; what each metric yields in each save by induction over the time-steps; all scenarios and metrics yield together (lockstep of the aggregators); then columns of equal blocks (wide), filtering of disjoint blocks (long), rows overwritten once (HDF5).
* **C67** Virtual nodes of a model file act on the flows and volumes of the nodes they name: partial, in `Props_SchemaLicence.v`, `Props_SchemaVirtual.v`, `Props_SchemaVirtualEx.v`: `C67_aggregated_limits`, `C67_proportions_partial`, `C67_ratios_partial`, `C67_coefficients_partial`, `C67_exclusive_max_partial`, `C67_exclusive_min_partial`, `C67_reported_flow_partial`, `C67_virtual_storage_partial`, `C67_resets`, `C67_window_days`, `C67_rolling_window_partial`, `C67_aggregated_storage`, `C67_reported_outflow_refuted`, `C67_factors_refuted`. Limits, resets and aggregated storages are proved in full. Relationships hold under the conditions of C38 and C39 (constant or separate factors, constant limits). Reported flows are the total unless a reference is a source (inflow) or a sink (outflow); by default outputs report 0 (refuted). Virtual storage use is proved without factors and for references to nodes of one part; with several parts the factors are matched with the wrong nodes (refuted). Rolling windows as in C18. Method: the parts a reference selects carry what the node named reports (by cases of the node), lifted over lists of references; then C38, C39, C16, C17, C18 and C50 for the node of the network that the virtual node becomes.
* **C68** A metric set records what it lists and everything its filters ask for, once, under a label that says what it is: partial, in `Props_MetricSets.v`: `C68_listed_then_filters`, `C68_every_component_once`, `C68_labels_tell_apart`, `C68_accepted`, `C68_entry_accepted`, `C68_aggregator`, `C68_edge_labels_refuted`. Proved for every model file, list and combination of filters. One part is false of the code: the label of an edge names the kind of slot but not which slot, so two edges between the same nodes from different slots are recorded under one label (C68_edge_labels_refuted); the theorems on uniqueness assume that edge labels differ when edges are filtered. Not modelled: Python parameters' keys and Python aggregation functions. Method: what `load_as_output` gives is what the entry stands for (by cases of the metric and of the node); names used once make it one to one on what filters create, and `append_new` keeps lists without repetition so.
* **C69** Converting a Pywr v1 file keeps every component with its meaning or reports it: partial, in `Props_V1Convert.v`: `C69_names_unique`, `C69_nothing_lost`, `C69_nothing_invented`, `C69_completes`, `C69_same_name_refuted`, `C69_series_replaced_refuted`, `C69_virtual_reference_refuted`, `C69_control_curve_refuted`. Proved for files whose names are used once and apart (tidy); the refuted theorems show files outside it for which the conversion loses or duplicates something without an error. Types of node and parameter are their values in order of conversion; what each type does with the rest of its attributes is not modelled. Method: induction on nested values and parameters: what a component adds to the shared data has names of its own (given, or generated from its name and a count), so loops over components keep all names apart; the meaning before references are updated is monotone in the data, and the final update turns it into the meaning of the new file.
* **C70** A parameter of a model file computes what its type defines from the metrics it names: partial, in `Props_SchemaParams.v`: `C70_values_partial`, `C70_loads_partial`, `C70_registered_partial`, `C70_names_partial`, `C70_local_reference_refuted`, `C70_threshold_clash_refuted`, `C70_multi_threshold_refuted`, `C70_virtual_node_refuted`. Proved for all parameters of nodes and of the network; partial because the code looks for local parameters only in some types, registers some thresholds in a wrong scope and never adds the parameters of virtual nodes (each shown by a refutation). Method: case by case over the types: what is loaded reads, in the scope of the parameter, what the file names; the value then follows from the theorems about the core parameters (C22-C27, C29, C30, C33) and new ones for polynomial, discount and checked sums; names by a disjointness argument over all parameters
* **C71** Whichever LP solver is chosen, the problem it solves in every time-step is the one the network defines: partial, in `Props_Backends.v`: `C71_features`, `C71_asks_the_networks_problem_partial`, `C71_steps_reach_the_library_partial`, `C71_flows_are_optimal`, `C71_flows_are_solutions`, `C71_cbc_exclusive_refuted`, `C71_highs_coefficients_refuted`, `C71_microlp_panics_refuted`, `C71_cbc_status_refuted`. The feature check is exact, and after any history the library of each solver holds the network's programme: for HiGHS with coefficients of at most 1e10, for microlp with bounds inside the number range. Every step reaches the library, for CBC if exclusive sets have constant limits and for microlp if no lower bound exceeds the upper one. The restrictions are necessary: the four refutations show what the code does outside them. Flows are optimal given a library that says optimal only of optimal values. Method: simulation: an invariant over the history relates the arrays of the builder and the problem in each library to the rows of the programme of C31-C40 (arrays in closed form; each row of the library is the row's entries with the updates replayed); the sets of solutions then agree; what CLP and CBC cannot take is excluded by the feature check
* **C72** A model file, new or converted from v1, is run for the scenarios and time-steps it asks for: partial, in `Props_SchemaDomain.v`: `C72_scenarios_of_file`, `C72_file_accepted`, `C72_combinations_of_file`, `C72_no_scenarios`, `C72_v1_nothing_lost`, `C72_v1_reported`, `C72_v1_scenarios_partial`, `C72_v1_combinations`, `C72_v1_time`, `C72_v1_single_argument_refuted`, `C72_v1_panics_refuted`, `C72_missing_index_refuted`. Proved for all files and conversions except where the code does something else, shown by the refutations: v1 slices of one argument are dropped, step 0 and 0 days panic, indices beyond the group are silently left out. Method: the file's groups are shown to become the builders of C02-C04 one by one (induction over the list); a v1 slice is the arithmetic progression Python defines (induction on the loop of `step_by`); dates through C06
* **C73** A model file of several networks is run as it says: partial, in `Props_SchemaMulti.v`: `C73_networks`, `C73_run`, `C73_accepted`, `C73_validate_partial`, `C73_validate_refuted`. Networks, transfers, runs and acceptance are proved in full; validation only for networks written in the file, because networks given by path are not validated (refutation). Method: the loop that loads all transfers and changes the builders on the way is shown to act on each network as loading that network's metrics alone (induction over the flattened transfers); composed with C35 and C72 for whole runs; acceptance as an equivalence where networks do not fail
* **C74** Visitors of a model file reach everything they are for: partial, in `Props_Visit.v`: `C74_metrics_partial`, `C74_node_references`, `C74_paths_partial`, `C74_rename`, `C74_document`, `C74_fixed_array_refuted`, `C74_paths_refuted`. Node references are proved in full (with renaming). Metrics: all but those in arrays of fixed length. Paths: all in nodes, parameters, time series and outputs. The rest is missed by the code (refutations). Method: the file is turned into a document with numbered places; a traversal of documents is shown to hit exactly the places of a kind, sorted and once each, and to replace exactly those; each of the six visitors is shown to be such a traversal by induction on values; the document is shown to determine the file
* **C75** Parameters written in Python are given the present and keep to their scenario: partial, in `Props_PyParams.v`: `C75_arguments_partial`, `C75_scenarios`, `C75_independent`, `C75_function`, `C75_phases`, `C75_large_integer_refuted`, `C75_shared_arguments_refuted`, `C75_kept_info_refuted`. Partial because the code shares the argument objects between scenarios and turns integers beyond i64 into floats, so these parts are refuted. Proved for every class whose objects keep to themselves, any schedule, any metrics; C75_independent leaves out dictionary results, which are maps and are equal only in what is read from them (C75_scenarios covers them). Method: the user's code is an arbitrary function on an arbitrary state of the interpreter; a run for any interleaving of the scenarios' calls is shown, by an invariant on the objects and info objects, to refine one state machine per scenario
* **C76** The OpenCL solver gives each scenario the flows ipm-simd gives for its state alone: partial, in `Props_IpmOcl.v`: `C76_setup`, `C76_same_flows`, `C76_schedules_do_not_matter`, `C76_near_best`, `C76_few_scenarios_refuted`. Partial because the single precision solver panics when there are fewer scenarios than chunks (C76_few_scenarios_refuted). The rest is proved for every schedule, chunk number, first contents of the buffers and history, in real arithmetic. Method: the kernels act on flat buffers shared by all work items; each function is shown to read and write its own cells only, so that any fair interleaving is, per work item, the run of a lane alone (IpmStep.v); the flat linear programme is shown to project to the one ipm-simd has for the state
* **C77** The outputs of a model file deliver the metric sets they name: partial, in `Props_SchemaOutputs.v`: `C77_accepted`, `C77_independent`, `C77_memory`, `C77_no_other_results`, `C77_wide_csv`, `C77_long_csv`, `C77_hdf5`, `C77_value_partial`, `C77_exchanged_refuted`, `C77_time_function_refuted`, `C77_wrong_value_refuted`, `C77_same_name_refuted`, `C77_dataframe_set_refuted`, `C77_no_value`, `C77_dataframe`. Partial because the code exchanges the functions over time and over scenarios of a memory output (C77_exchanged_refuted): the single value is as asked only when they are the same (C77_value_partial). A later memory output of the same name also replaces an earlier one (C77_same_name_refuted). The rest is proved. Method: the run with a list of recorders is shown to be the runs with each alone by induction over the list and the steps; each alone is the run of Memory.v or Outputs.v, to which C34 and C66 apply; the single value by unfolding the three reductions
* **C78** A model file is read, written and read again without loss: partial, in `Props_Serde.v`: `C78_round_trip`, `C78_typed`, `C78_file_round_trip`, `C78_written_apart`, `C78_fuel`, `C78_same_partial`, `C78_unknown_refused`, `C78_strict`, `C78_misspelt_scenarios_refuted`, `C78_misspelt_slot_refuted`, `C78_ignored_member_refuted`, `C78_same_refuted`. Partial because some objects of the format ignore members they do not know (C78_same_refuted): C78_same_partial lists them and shows that nothing else gets lost. The round trip is proved without exception for trees; the text of JSON is not modelled.
* **C79** Calls into the solver libraries stay within their memory: partial, in `Props_Ffi.v`: `C79_safe`, `C79_same_problem`, `C79_flows_in_range`, `C79_released_partial`, `C79_highs_released_refuted`, `C79_optimal_read`. Memory safety is proved for all three libraries. Partial because the HiGHS object is never given back (C79_highs_released_refuted); C79_released_partial shows that the others are. Method: Every call as a constructor with the arrays and numbers it is given; the library's object as the problem it holds, or none; a run as the list of its calls. `FfiSpec.v` says what each call may be given. Invariant: the arrays and the object keep the numbers of rows and columns, and every column index of a row or an update is one of them; by induction over the time-steps
* **C80** However a run is started, it is the run that was asked for: partial, in `Props_Launch.v`: `C80_command_line`, `C80_command_line_multi_partial`, `C80_multi_threads_refuted`, `C80_python_options`, `C80_keywords_removed`, `C80_same_dictionary_refuted`, `C80_opencl_keywords_refuted`, `C80_names`, `C80_names_refuted`, `C80_same_run`, `C80_run_from_path`, `C80_stepping`, `C80_convert_file`, `C80_convert_directory`, `C80_unread_entry_refuted`. Proved for the run command, for four solvers in Python, for stepping by hand and for converting files. Partial because run-multi drops the number of threads, a Python call empties its caller's dictionary, the OpenCL solvers ignore keywords and three solvers have no common name, and unreadable directory entries are passed over (each refuted). Method: Command line options and Python dictionaries to the run that is started; the dictionary is a state that calls change; stepping by hand is the model of C36 with a pool chosen at each step; files as a function from paths to texts. By cases over the keywords, and induction over the steps and over the directory's listing; the sequential run is the pivot between any two ways of running
* **C81** Double precision arithmetic keeps volumes, interpolation and aggregation right: partial, in `Props_Float64.v`, `Props_Float64Bound.v`: `C81_volume_in_limits`, `C81_within_accepted`, `C81_limits_suffice_partial`, `C81_large_storage_refuted`, `C81_nan_volume_refuted`, `C81_virtual_limits`, `C81_initial_volume`, `C81_interpolate_ends`, `C81_interpolate_close_partial`, `C81_interpolate_order_partial`, `C81_interpolate_range_refuted`, `C81_extremes`, `C81_largest`, `C81_exact_bounds`, `C81_period_extremes`, `C81_sum_close_partial`, `C81_mean_close_partial`, `C81_sum_order_refuted`, `C81_threshold`, `C81_equal_infinite_refuted`, `C81_whole_days`, `C81_limits_close_partial`, `C81_initial_volume_close_partial`, `C81_whole_numbers`, `C81_counts`, `C81_nan_values`. Volumes within limits, extremes, predicates, initial volumes, limits of virtual storages and whole days are proved for all doubles, the counting functions and sums, products and volumes of whole numbers are exact, and values that are not numbers are refused. Partial because large storages trip the mass-balance check, a NaN volume passes it, interpolated values and means can leave their range and sums depend on the order (each refuted); the _partial theorems give the sizes up to which the limits suffice and bounds on the errors. Method: Rust's f64 as Coq's `SpecFloat` (53 bits, exponents below 1024), which computes; order as a lexicographic order of integers; every operation shown to be that of Flocq, hence the exact one followed by one rounding; error bounds with real numbers, sums by induction over the list
* **C82** A model's data is read from the files it names and checked against their checksums: partial, in `Props_DataFiles.v`: `C82_checksum`, `C82_capitals_refuted`, `C82_table`, `C82_table_checked_partial`, `C82_changed_between_refuted`, `C82_tables`, `C82_polars`, `C82_parquet_refuted`, `C82_pandas`, `C82_series`, `C82_place`, `C82_v1_checksum`, `C82_v1_checksum_lost_refuted`, `C82_v1_index_partial`, `C82_v1_index_number_refuted`, `C82_v1_parse_dates_refuted`, `C82_array`, `C82_array_scenario`, `C82_array_columns_refuted`, `C82_array_no_column_refuted`. Where each file is looked for, when it is accepted, and what is loaded from it are proved as equivalences for all contents, readers and digests. Partial because the check and the reading open the file separately, capital letters in a hash are refused, parquet panics, and checksums, numbered index columns and columns of arrays are dropped in silence (each refuted). Method: The disk as what is at each path at each look; digests and readers of other libraries as parameters; each loader shown equivalent to the conjunction of its conditions, collections by induction over their definitions with names and looks
* **C83** Each type of version 1 parameter and node becomes one that means the same, or is refused with an error that names it: partial, in `Props_V1Components.v`: `C83_parameters_partial`, `C83_accepted`, `C83_reported`, `C83_rbf`, `C83_bare_curve_refuted`, `C83_of_virtual_refuted`, `C83_curve_error_refuted`, `C83_both_given_refuted`, `C83_year_refuted`, `C83_nodes`, `C83_nodes_accepted`, `C83_nodes_reported_partial`, `C83_nodes_reported_refuted`, `C83_split_edges_refuted`, `C83_steps_dropped_refuted`, `C83_delay_days_refuted`, `C83_two_volumes_refuted`. Meaning, acceptance and errors are proved for every modelled type. Partial because virtual storages, split slots, surplus steps and points, days of delays and some second attributes are lost, and three errors name the wrong attribute (each refuted). RBF profiles are compared by their points and function, not by their values. Method: One case for each type of version 1 parameter and node, with its optional attributes and errors; the meaning of the new parameter (that of C70) shown to imply the meaning of the old by cases; acceptance shown equivalent to a condition on the attributes
* **C84** What a run records for a parameter of a model file is what its type defines, whichever implementation it gets: partial, in `Props_ParamTiers.v`: `C84_equations_partial`, `C84_file_partial`, `C84_accepted_partial`, `C84_offset_refuted`, `C84_delay_zero_refuted`. Proved for every type of parameter that C70 loads, in any network with any other parameters, nodes and solver. Partial because an offset parameter never completes a time-step and a delay of zero depends on the implementation (each refuted), and because networks that refer to the maximum flow of a node are excluded (C19) and what a metric with the return value 'after or initial' reads is left open. The table of metric resolution used here refuses an integer metric that asks for another value than that before the solve of a constant or simple parameter; the code accepts it (C21_shared_table_exact delimits the difference), so such metrics are outside what is proved. Method: The builder of each type (which metrics, for which phase, which store from their classes) and its constant, simple, before, after and hook implementations, put into the evaluation of C19; the equations of C19 are instantiated, each implementation is shown to compute what the type defines, and a simple metric is shown to have one value in a time-step; composed with C70 it gives the meaning of the file; acceptance is shown equivalent to conditions on names and phases
* **C85** The parameters of a model file, the nodes, the solver and the recorders work together as the file says: partial, in `Props_WholeRun.v`: `C85_file_partial`, `C85_recorded_partial`, `C85_limits`, `C85_flows`, `C85_storage`, `C85_proportion`, `C85_aggregated`, `C85_licence`. Proved for every network, solver that returns feasible solutions, and file with the parameters of C70. Partial for the reasons of C70 and C84 (a multi-valued parameter of a node, an offset parameter, a delay of zero), and because nodes that are in mutually exclusive sets and metrics of a node's maximum flow are not covered by the statements about nodes. Method: The evaluation of C19 and C84 with the nodes of C14 to C18, the solver's programme of C09 to C13 and the metrics on the network put in for what they leave open; by induction over the time-steps a run of the whole is a run of each part, with the values one part reads being those the other has; the properties of nodes are then restated with the meaning of the file's parameters
* **C86** The parameters that nodes make for themselves do their work in a run: proved, in `Props_NodeParams.v`: `C86_run`, `C86_delay_recorded`, `C86_muskingum_recorded`, `C86_turbine_recorded`. Proved for every network, solver that returns feasible solutions, delay and initial value. That the parameters of the file and of its nodes are in the network, and the numbering of the metrics of the nodes, are premises.
* **C87** The deficit recorded for an output is what it got less than its demand: partial, in `Props_Deficit.v`: `C87_deficit_partial`, `C87_moving_limit`, `C87_moving_limit_refuted`. Proved for maximum flows that are numbers or values of parameters before the solve. Refuted for those that are flows of other nodes: the limit in force is the flow of the time-step before, the deficit is counted from the flow of the present one. That the parameter is in the network is a premise (asked_deficit says which it is).
* **C88** Recorders hold what was simulated, and assertions let exactly the runs pass that agree with what is expected: partial, in `Props_Recorders.v`: `C88_recorders_partial`, `C88_error_named`, `C88_short_run_refuted`. The equivalence and what arrays hold are proved in full. That nothing else is expected of the run is refuted: expected values beyond the last time-step go unnoticed.
* **C89** Nodes are built with the metrics they are declared with, and an error names the attribute it is about: partial, in `Props_NodeAttrs.v`: `C89_storage_built`, `C89_virtual_storage_built`, `C89_flow_limits`, `C89_relationship`, `C89_storage_error`, `C89_virtual_storage_error_partial`, `C89_wrong_attribute_refuted`. What is built is proved in full. Errors name the attribute at fault except for the minimum volume of a virtual storage, for which the code names max_volume. Whether edges and member nodes are found is in C37's model (NetworkBuild.v).

## Findings

Where the code departs from what its documentation or names promise. "(proved)" means a theorem of
the manifest exhibits it on the model; the others were noticed while modelling.

Scenarios and time

* A subset given by indices is not checked against the size of its group.
* Schema scenario ids of a domain of combinations do not match those of a full run (C05, proved).
* Day-of-year resets of virtual storage are missed when no step starts on that day (C17, proved).
* An integer metric that asks for the after-phase value of a constant or simple parameter is accepted,
  although such a parameter has none; a floating-point metric is refused (C21, proved).

Linear programme

* Storage coefficients that vary use the positive factor for both directions.
* Coefficients that vary are set, not accumulated; aggregated nodes with varying factors that share
  a decision variable overwrite each other's row (C38, proved).
* Rows of mutual exclusivity with varying bounds are masked, so the per-step reset removes them and
  exclusivity is not enforced (C39, proved); a minimum number of active nodes is not enforced for a
  node without a minimum flow.
* Errors of constant factors are ignored when the rows are set up: a gross loss factor of 1 or more
  has no effect (C40, proved).
* Constant coefficients with a varying right-hand side use 0 as right-hand side.
* A proportion or ratio of zero gives a division by zero: a panic if constant, an infinite
  coefficient if not; errors in varying factors panic.

Virtual storage

* A rolling store's initial flow is a volume per step, which is wrong for steps other than one day
  and panics (C18, proved); the volume recovered uses the current step's length (proved).
* Resetting a rolling store to its maximum can exceed the maximum and panic.
* A store outside its range stays outside, and the run panics; a store on storage nodes panics.
* A store is reset on every inactive step.
* The interior point back ends with multiple scenarios never call the step that completes a state.

Parameters

* The maximum flow of a node as a metric hides what that limit depends on, so a parameter can read
  values of the wrong step (C21, proved), and a node whose limit refers to itself recurses forever.
* A circular definition hides undefined references (C20, proved); a reference to the previous step
  counts as a dependency within the step (C20, proved).
* A delay of 0 steps on a result fails in the first step (C22, proved). A rolling window with more
  required values than its length never aggregates (C23, proved).
* `difference` with min above max returns a value outside either.
* Interpolated control curves panic with too few values (C26, proved); curves closer than 1e-6 give
  a jump (C26, proved); disorder after the query's place goes unnoticed (C27, proved).
* Interpolating monthly profiles backwards overshoots after midnight of the last day (C29, proved);
  February differs between leap and other years (C29, proved).
* Uniform drawdown with a reset in January or February is a day ahead from 1 March in other years
  (C30, proved), and a reset on 29 February never happens in them; residual days and the reset day
  wrap at 256 when read from a file (C30, proved).
* Radial basis profiles are a day late against the ordinal day (C51, proved) and panic with two
  points on a day (C51, proved). Thin plate splines give NaN on the diagonal.
* Array lookups whose index plus offset overflow read the wrong end or panic (C45, proved).
* The offset parameter has no state, so evaluating it or setting its variable panics (C47, proved).
  Setting the variable of a constant parameter has no effect (C47, proved). An activation function
  with min above max panics (C47, proved).
* Products of `u64` values checked for overflow depend on the order (C33, proved).

Recorders

* The duration of the final period omits that of its last value (C31, proved); a completed parent
  period is dropped in `finalise` (C32, proved); a final child value without duration is lost (C32,
  proved); a sum counts a value twice that is split over two periods (C31, proved).
* Periods of days drift from step to step; a negative number of days loops forever (C31, proved); a
  value that spans two period starts panics (C31, proved).
* A metric set without metrics panics in the memory recorder (C34, proved).
* In the long format the column `metric_set` holds the recorder's name. A single value bypasses
  the aggregation function. The mean uses the lower bound of the size hint as count.

Running

* Stepping in parallel turns errors into panics (C36, proved).
* A transfer without an initial value from a network later in the list reads its set-up state in
  the first step (C35).

Model files

* A river split with two or more splits does not follow the configured shares (C41, proved).
* The bypass cost of a river gauge is stored as the minimum flow of the other route (C49, proved).
* A link with both soft constraints loses its hard maximum (C52, proved).
* A reservoir with evaporation can never be built (C56, proved). Its evaporation metric depends on
  rainfall being given; its rainfall metric reads the inflow of an input node, which is 0.
* The loss component of a treatment works without loss factor names a node that does not exist.
* A river with losses and routing reports the routed flow before losses as outflow (C58, proved).
* The connectors of a piecewise storage omit the top store; without control curves it cannot be
  connected at all (C43, proved). The order of the curves is not checked, so a store can get a
  negative capacity (C43, proved). An initial volume above the total is cut without error (C43,
  proved).
* A Muskingum river whose 2*K*X exceeds the step stays dry for good once it is dry (C42, proved); a
  travel time or weight that varies breaks its mass balance (C42, proved).
* A delay node with a delay of 0 is accepted by the schema and never runs (C59, proved).
* The hydropower parameter ignores its minimum flow at or below the minimum head, and its maximum
  when it is below the minimum (C46, proved). Its documentation says the flow is zero when the head
  is less than the minimum; the code says less than or equal. Without a water elevation the
  turbine's own elevation is the head. The power reported after the solve uses the water elevation
  after the solve, the flow limit the one before.
* Virtual storage factors are matched with flattened nodes.
* Scalar tables with three or four keys by row or by column are loaded as two-key tables, so that well-formed ones do not load and no key with three or four strings is ever found (C48).
* A scalar table without a column (or row) of values panics while loading instead of giving an error (C48).
* When a key is repeated in a scalar table by row the last row silently counts; if its value is not a number the entry is not found although an earlier row has one (C48).
* With calendar time-steps (months) a finer time series is averaged over windows as long as the first step, so later steps silently get other days' data (C60).
* A coarser time series whose spacing is not a whole number of time-steps loses data points that fall between time-steps (C60).
* A time series with a missing row panics (`todo!`) instead of giving an error; one with a single row in the period is an error; forward filling stops at the last data point, so coarser data must reach the last time-step (C60).
* A column and a scenario group of the same name in one data set share a parameter, so the second reference gets the first's data (C61).
* A column referenced first as an index and then as a value is truncated to whole numbers in both places (C61).
* Recorder names are not checked for duplicates.
* The interior point solver panics (ends the program) when it does not converge within the iteration limit, when a NaN appears, or (index underflow) when the constraint matrix has an empty row; none is reported as an error. It needs linearly independent equality rows: the factorisation takes the absolute value of a negative pivot and divides by a zero one (C62 has this as hypothesis).
* The interior point solver ignores minimum flows without an error (they need no feature), and all limits and flows above 999999 are cut to 999999 (C65). It declares no features, so aggregated nodes and virtual storages are refused, unless feature requirements are ignored: then they are ignored too.
* A storage without an edge, or a group of links joined to no other node, breaks the conditions of the interior point method (an empty row, dependent rows); neither is checked (C65).
* HDF5 output ignores the aggregator of its metric set and always writes one row per time-step; two metrics of the same name and attribute, or a node called `time`, make its set-up fail (C66).
* `decimal_places: 0` in a CSV output means no rounding at all; the option is silently ignored by the wide format, which always prints two places (C66).
* A long CSV output without any record has no header line either, because the header is written with the first record (not modelled).
* A metric set without metrics makes the wide CSV recorder panic in the first save (C66).
* The default attribute of an aggregated node is its outflow, which is 0 if it is made of outputs, for instance the demands of a zone (C67, `C67_reported_outflow_refuted`).
* The label of an edge names the kind of slot only: two edges from different slots of a split to the same node get the same label in all outputs (C68, `C68_edge_labels_refuted`).
* Converting a v1 file in which a node and a parameter share a name can give two parameters of the same name (`A-p0`), and with DataFrames inside silently drops one of the two files that are read (C69, `C69_same_name_refuted`, `C69_series_replaced_refuted`).
* A virtual node or an index attribute that refers to a DataFrame by name is converted to a reference to a parameter that no longer exists, without an error (C69, `C69_virtual_reference_refuted`).
* A v1 control curve without values is converted twice; parameters written inside it are then in the new file twice (C69, `C69_control_curve_refuted`).
* The conversion panics (`todo!()`) for CurrentYearThreshold, CurrentOrdinalDayThreshold, ScenarioWrapper, MultiSplitLink and RiverSplit (C69, `C69_completes`).
* Most types of parameters load their metrics without the node they belong to: a reference to a local parameter in them is refused although the node has that parameter (C70, `C70_local_reference_refuted`). The scope is honoured by aggregated, indexed array (metrics), multi-threshold (thresholds), control curve (curves, values), control curve index and piecewise parameters.
* Local thresholds of the same name in two nodes clash when they return other metrics: the inner threshold is registered with the name of the parameter in place of that of the node (C70, `C70_threshold_clash_refuted`).
* A local multi-threshold that returns its position is registered in the network, out of reach of local references (C70, `C70_multi_threshold_refuted`).
* The parameters of virtual nodes are read from the file and never added to the model (C70, `C70_virtual_node_refuted`).
* CBC declares support for mutual exclusivity, but with a varying limit (or a storage) in an exclusive set every time-step fails with `MissingSolverFeatures` after the network was accepted (C71, `C71_cbc_exclusive_refuted`).
* HiGHS is given coefficients cut to 1e10: it solves another problem than the network's without a message (C71, `C71_highs_coefficients_refuted`). Coefficients set at setup are not cut.
* microlp panics (`assert`) when a lower bound exceeds the upper bound in a time-step; the others report an infeasible problem (C71, `C71_microlp_panics_refuted`).
* CBC's solution status is not checked: an infeasible or unbounded time-step is completed with the values the library holds (C71, `C71_cbc_status_refuted`).
* A v1 scenario slice of one argument (`[3]`, the stop in Python) is converted to the whole group: all members are run (C72, `C72_v1_single_argument_refuted`).
* Converting a v1 slice with step 0, or a time-step of 0 days, panics instead of reporting an error (C72, `C72_v1_panics_refuted`).
* An index of a scenario subset beyond the size of its group is not reported; the scenario is left out, and a model may then run no scenario at all (C72, `C72_missing_index_refuted`).
* `MultiNetworkModelSchema::validate` says it validates each network, but networks given by path are not read: their problems are found only when the model is built (C73, `C73_validate_refuted`).
* `visit_metrics` and `visit_metrics_mut` do not reach the metrics in an array of fixed length (`impl VisitMetrics for [Metric; N] {}`), that is the `returned_metrics` of a threshold parameter; the node references in them are reached (C74, `C74_fixed_array_refuted`).
* `visit_paths`, said to find all the external files, does not reach the files of tables, of local parameters of virtual nodes and of Python aggregation functions of metric sets (C74, `C74_paths_refuted`).
* The Python objects made from the `args` and `kwargs` of a Python parameter are made once and given to the object of every scenario (and to every call of a function): a class that keeps and changes a list or dictionary it was given mixes the scenarios (C75, `C75_shared_arguments_refuted`).
* The info object passed to Python is the same one in each call of a scenario, so one kept from an earlier time-step shows the present one (C75, `C75_kept_info_refuted`).
* An integer argument above 2^63 - 1 reaches Python as a float (C75, `C75_large_integer_refuted`).
* The single precision OpenCL solver panics when there are fewer scenarios than chunks, of which there are four unless the settings say otherwise; the double precision one does not (C76, `C76_few_scenarios_refuted`).
* The functions over time and over scenarios of a memory output are exchanged when a model file is loaded: `MemoryAggregation::load` passes time first and `Aggregation::new` takes scenarios first. The single value is wrong whenever the two differ, and missing when a file with one scenario gives only a function over time (C77, `C77_exchanged_refuted`, `C77_wrong_value_refuted`, `C77_time_function_refuted`).
* Two memory outputs of one name are accepted, and the results of the earlier are dropped (C77, `C77_same_name_refuted`).
* In the data frame of a memory output the column `metric_set` holds the name of the output, not of the metric set as in the long CSV format (C77, `C77_dataframe_set_refuted`).
* The objects at the top of a model file ignore what they do not know: `scenario` for `scenarios` runs one scenario instead of ten without a word. Nodes and parameters refuse it. The same holds of edges, time domains, scenario groups, tables, outputs and the meta data (C78, `C78_misspelt_scenarios_refuted`, `C78_same_refuted`).
* An edge with a misspelt `from_slot` or `to_slot` is an edge without slot (C78, `C78_misspelt_slot_refuted`).
* Alternatives that take nothing but their type (aggregation functions, slots, ...) ignore whatever else is given (C78, `C78_ignored_member_refuted`).
* The HiGHS object is never destroyed: `Highs` has no `Drop`, so every scenario of every run leaks its model (C79, `C79_highs_released_refuted`).
* `pywr run-multi --threads n` ignores the number of threads (C80, `C80_multi_threads_refuted`).
* Python: `model.run(solver, kwargs)` removes the keywords from the caller's dictionary, so a second call with the same dictionary runs with the defaults (C80, `C80_same_dictionary_refuted`).
* Python: the OpenCL solvers take any keyword arguments and ignore them all (C80, `C80_opencl_keywords_refuted`).
* The OpenCL solvers have other names in Python than on the command line, and `microlp` cannot be chosen in Python (C80, `C80_names_refuted`).
* Converting a directory passes over entries that cannot be read, without an error (C80, `C80_unread_entry_refuted`). Files with the extension in capitals are not converted either.
* Without an output path, `pywr run` writes relative to the working directory and Python's `run_from_path` relative to the model file (C80, `C80_command_line` and `C80_run_from_path`).
* A storage of more than about 1e10 units can end the run: the tolerance of the mass-balance check is fixed at 1e-6, less than one unit in the last place of such a volume. Emptying 61,570,227,133 m3 in a weekly time-step, with the very flow its limit allows, panics (C81, `C81_large_storage_refuted`).
* A volume that is not a number passes the mass-balance checks and stays (C81, `C81_nan_volume_refuted`).
* Just below its upper bound an interpolated value can be above the upper value, e.g. between 0.7 and 2.9, and the product in the formula can overflow (C81, `C81_interpolate_range_refuted`).
* Sums depend on the order of the values, and a mean can be above all of its values: that of 0.1, 0.1 and 0.1 is (C81, `C81_sum_order_refuted`).
* `EqualTo` is false for an infinite value and the same threshold, although `<=` and `>=` are true (C81, `C81_equal_infinite_refuted`).
* A file is opened once to check its digest and again to read it: one that changes in between is loaded although its checksum does not fit (C82, `C82_changed_between_refuted`).
* A hash written in capital letters never matches (C82, `C82_capitals_refuted`).
* Parquet files panic (`todo!()`) when polars should read them (C82, `C82_parquet_refuted`).
* The checksum of a version 1 data frame with another algorithm than MD5 or SHA256 is dropped in silence, although the same is an error for an array parameter (C82, `C82_v1_checksum_lost_refuted`).
* A version 1 `index_col` given as a number is dropped: the first column is used instead (C82, `C82_v1_index_number_refuted`).
* `parse_dates` of a version 1 data frame is only removed if the name ends in ".csv" in small letters; for ".CSV" the converted model fails to load (C82, `C82_v1_parse_dates_refuted`).
* An array parameter without a scenario group keeps only the first column of its dataset and does not say so; a dataset without columns makes it panic (C82, `C82_array_columns_refuted`, `C82_array_no_column_refuted`).
* Thresholds, multi-thresholds, interpolations, polynomials, rolling means and control curves without values of a version 1 virtual storage become parameters of a node of that name, and the converted model cannot be loaded (C83, `C83_of_virtual_refuted`, `C83_bare_curve_refuted`).
* No slot of a version 1 edge leads to one of the parts of a converted river split: the edge is refused or connects them all (C83, `C83_split_edges_refuted`).
* Steps of a version 1 piecewise link beyond the shorter of its lists of costs and flows, and points of an RBF profile beyond the shorter of days and values, are dropped in silence (C83, `C83_steps_dropped_refuted`, `C83_rbf`).
* A control curve one of whose parameters cannot be converted is reported as having parameters it should not have (C83, `C83_curve_error_refuted`); the flow of a catchment is reported as `min_flow` and factors of an aggregated node as those of a parameter (C83, `C83_nodes_reported_refuted`).
* A delay of version 1 in days becomes one of as many time-steps whatever their length (C83, `C83_delay_days_refuted`); of two delays, initial volumes, or of values and parameters, one is dropped in silence (C83, `C83_two_volumes_refuted`, `C83_both_given_refuted`).
* The base year of a discount factor is cut to 16 bits (C83, `C83_year_refuted`).
* A delay of zero time-steps is today's value if it delays a profile or the like, and an error if it delays something of the network (C84, `C84_delay_zero_refuted`).
* No run of a network with an offset parameter completes a time-step (C84, `C84_offset_refuted`; C47).
* C87: if the maximum flow of an output is a metric of the network, such as the flow of another node, the limit in force is the value before the solve but the deficit is counted from the value after it, so an output that takes all it may is said to be short (`C87_moving_limit_refuted`). An output without a maximum flow has the deficit `f64::MAX` less its flow (`C87_deficit_partial` with no maximum).
* C51: the `variable` settings of a radial basis profile in a model file (the range of days and the bounds of values) are read but not handed on when the model is built (pywr-schema/src/parameters/profiles.rs 383-399); by reading, not a theorem.
* C51: a radial basis profile with the thin plate spline is NaN on the days of its points, and the diagonal of its system is NaN: the function is computed as 0 times the logarithm of 0 (`C51_thin_plate_refuted`).
* C88: an assertion that expects more time-steps than a run has passes all the same (`C88_short_run_refuted`); one that expects fewer panics on an index out of bounds instead of failing with a message. `Array2Recorder` has no `finalise`, so its array is dropped at the end of a run and can only be read by stepping the model.
* C89: if the minimum volume of a virtual storage is not a simple metric, the error names `max_volume` (virtual_storage.rs 145-146), even if none is declared (`C89_wrong_attribute_refuted`).
