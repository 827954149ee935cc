{"id": "C01", "title": "Full scenario enumeration is complete and duplicate free", "statement": "When a scenario domain is built from groups without subsets or combinations, the simulated scenarios are exactly all combinations of group members, each appearing once, ordered with the last declared group varying fastest, and the simulation id of each scenario is its position in that order.", "quantifier": "every list of scenario groups and every group size", "why_tests_cant": "The number of groups and their sizes are unbounded; a test enumerates one or two domains.", "anchors": ["pywr-core/src/scenario.rs: ScenarioDomainBuilder::build"]}
{"id": "C02", "title": "Subsetting a scenario domain simulates exactly the requested scenarios", "statement": "When any group has a subset (slice, label list or index list), a combination of group members is simulated if and only if every group's member is in that group's subset; the survivors keep the order of the full run, are numbered 0,1,2,... without gaps, and none is run twice.", "quantifier": "every list of groups, sizes and subsets", "why_tests_cant": "Subsets combine multiplicatively and in any order; finite examples cannot cover them.", "anchors": ["pywr-core/src/scenario.rs: ScenarioGroupBuilder::build, ScenarioDomainBuilder::build"]}
{"id": "C03", "title": "Scenario data lookup is unaffected by subsetting", "statement": "For every simulated scenario, per-scenario data loaded for a group and cut down to the group's subset yields, at the scenario's simulation index, the same value as the full data at the scenario's schema index; therefore a sliced run sees the same inputs as the same scenario in a full run.", "quantifier": "every domain, subset, simulated scenario, group and data array with one entry per group member", "why_tests_cant": "A misaligned index only shows for particular slices and group positions.", "anchors": ["pywr-core/src/scenario.rs: ScenarioIndex::{simulation_index_for_group,schema_index_for_group}", "pywr-core/src/parameters/array.rs: subset_array2", "pywr-core/src/parameters/constant_scenario.rs"]}
{"id": "C04", "title": "User supplied scenario combinations run exactly as listed", "statement": "When explicit combinations are supplied, the simulated scenarios are exactly the listed combinations in the listed order, and for each group the simulation index addresses the sorted list of distinct members used by the combinations so that it points at the member named in the combination.", "quantifier": "every list of groups and every list of in-range combinations", "why_tests_cant": "Combination lists are arbitrary.", "anchors": ["pywr-core/src/scenario.rs: ScenarioDomainBuilder::{build,build_scenario_map_from_combinations}"]}
{"id": "C05", "title": "Schema scenario id matches the id of the same scenario in a full run", "statement": "The schema id reported for a scenario of a sliced (or combination) run is the simulation id the same combination of group members has in the full run.", "quantifier": "every list of groups, subsets and simulated scenarios", "why_tests_cant": "With a single group, or symmetric examples, both orderings agree.", "anchors": ["pywr-core/src/scenario.rs: ScenarioDomainBuilder::schema_id"]}
{"id": "C06", "title": "Fixed-duration time-steps tile the simulation period", "statement": "Time-steps of a fixed duration start at the start date, follow each other without gap or overlap, have consecutive indices from zero, all begin no later than the end date, and the step after the last one would begin after the end date.", "quantifier": "every start date, end date and positive duration", "why_tests_cant": "The range of dates and durations is unbounded; off-by-one errors occur only at particular remainders.", "anchors": ["pywr-core/src/timestep.rs: generate_timesteps_from_fixed_duration, TimeDomainBuilder::build, Timestep::add"]}
{"id": "C07", "title": "Frequency based time-steps tile the simulation period", "statement": "Time-steps generated from a calendar frequency start at the start date, each step's duration reaches exactly to the next step's date, indices are consecutive, every date is within the period, and a frequency that does not advance is rejected instead of looping.", "quantifier": "every calendar span function, start and end date", "why_tests_cant": "Calendar spans have irregular length; only some dates expose mistakes.", "anchors": ["pywr-core/src/timestep.rs: generate_timesteps_from_frequency"]}
{"id": "C08", "title": "Day-of-year index names the same calendar day every year", "statement": "The 366-entry profile index of a date depends only on its month and day: it is the same in leap and non-leap years, is between 0 and 365, distinct days of a year have distinct indices, and only 29 February has index 59.", "quantifier": "every year and every day of the year", "why_tests_cant": "Errors show only in some years on one side of 29 February.", "anchors": ["pywr-core/src/timestep.rs: Timestep::day_of_year_index", "pywr-core/src/parameters/profiles/daily.rs"]}
{"id": "C09", "title": "Solved flows conserve mass at every link", "statement": "For every network and every feasible solution of the linear programme that the solver builder produces, the flows written back to the edges satisfy inflow = outflow at every link node, including links whose edges share one solver column and whose balance row is therefore omitted.", "quantifier": "every network graph and every feasible column vector", "why_tests_cant": "Column sharing depends on the graph and on the edge declaration order; tests cover a few graphs.", "anchors": ["pywr-core/src/solvers/builder.rs: create_columns, create_mass_balance_constraints", "pywr-core/src/solvers/col_edge_map.rs: add_equal_edges"]}
{"id": "C10", "title": "Column sharing loses no allocation", "statement": "Every assignment of flows to edges that satisfies the mass balance of all links is representable by the solver columns, i.e. the edges that share a column necessarily have equal flows in every balanced assignment, so the linear programme is equivalent to the one with one column per edge.", "quantifier": "every network graph and every balanced edge flow assignment", "why_tests_cant": "Same reason as link mass balance, in the other direction.", "anchors": ["pywr-core/src/solvers/builder.rs: create_columns", "pywr-core/src/solvers/col_edge_map.rs"]}
{"id": "C11", "title": "Node flow limits are enforced", "statement": "In every feasible solution each input, output and link node's flow lies between its min flow and max flow as evaluated for the current time-step, whether the limits are constant (fixed row) or dynamic (row bounds updated every time-step).", "quantifier": "every network, every bound values, every feasible solution and every sequence of updates", "why_tests_cant": "Depends on all node kinds, constant/dynamic bound combinations and update histories.", "anchors": ["pywr-core/src/solvers/builder.rs: create_node_constraints, update_node_constraint_bounds, add_node"]}
{"id": "C12", "title": "Constraint bounds never depend on earlier time-steps", "statement": "After updating the linear programme for a time-step, every row's bounds are a function of that time-step's state only: bounds applied on earlier time-steps (tighter or looser) leave no trace, and when several constraints share a row the tightest of the current values applies.", "quantifier": "every sequence of updates", "why_tests_cant": "Stale-state bugs need a particular history of bounds.", "anchors": ["pywr-core/src/solvers/builder.rs: Lp::{reset_row_bounds,apply_row_bounds}, LpBuilder::build"]}
{"id": "C13", "title": "The objective prices every unit of flow with its node costs", "statement": "For every network the objective coefficient vector makes the cost of a solution equal to the sum over edges of flow times (outgoing cost of the upstream node plus incoming cost of the downstream node); in a balanced solution each link contributes exactly its cost times its throughput, each input and output its cost times its flow, and each storage its cost times its net inflow.", "quantifier": "every network, cost assignment and balanced flow", "why_tests_cant": "Shared columns and half costs interact with arbitrary graphs.", "anchors": ["pywr-core/src/solvers/builder.rs: update_edge_objectives", "pywr-core/src/edge.rs: Edge::cost", "pywr-core/src/node.rs: get_outgoing_cost, get_incoming_cost"]}
{"id": "C14", "title": "Storage volume stays within bounds and balances", "statement": "If a storage starts a time-step within its min and max volume and the step's solution is feasible, then the volume at the end of the step equals the start volume plus (inflow - outflow) times the days in the step, lies within [min,max], and the end-of-step check never panics.", "quantifier": "every storage state, bounds, time-step length and feasible flows, and by induction every run length", "why_tests_cant": "Runs are unbounded and flows are chosen by the solver.", "anchors": ["pywr-core/src/solvers/builder.rs: update_node_constraint_bounds", "pywr-core/src/node.rs: get_bounds", "pywr-core/src/state/storage.rs"]}
{"id": "C15", "title": "Flows written to the state reproduce the solution", "statement": "After a solve the state reports for every edge the solved flow, for every node an inflow equal to the sum of its incoming edges and an outflow equal to the sum of its outgoing edges, independent of the values left by earlier time-steps; summed over the network, the change of stored volume equals (flow from inputs - flow to outputs) times days.", "quantifier": "every network, flow vector and previous state", "why_tests_cant": "Accumulate-and-reset bugs and topology specific double counting are not visible on small examples.", "anchors": ["pywr-core/src/state/mod.rs: NetworkState::{reset,add_flow}", "pywr-core/src/state/flow.rs", "pywr-core/src/state/storage.rs"]}
{"id": "C16", "title": "Virtual storage accounts for exactly its nodes' flows", "statement": "While active, a virtual storage's volume decreases over a time-step by days times the sum of factor times node flow over its nodes, does not change from flows while inactive, and if the step's solution is feasible it stays within [min,max].", "quantifier": "every virtual storage, factors, flows and histories", "why_tests_cant": "Histories and factor lists are unbounded.", "anchors": ["pywr-core/src/state/mod.rs: update_derived_states", "pywr-core/src/virtual_storage.rs", "pywr-core/src/solvers/builder.rs: create_virtual_storage_constraints"]}
{"id": "C17", "title": "Virtual storage resets exactly when configured", "statement": "A virtual storage's volume is reset to its initial (or maximum) volume at the first time-step, at every time-step outside its active period, and then exactly at the steps its reset rule prescribes (never; on the given day of year; once the given number of calendar months has passed since the previous reset); at the start of every other time-step the volume is what the previous one left.", "quantifier": "every reset rule and every sequence of time-step dates", "why_tests_cant": "Depends on arbitrary date sequences.", "anchors": ["pywr-core/src/virtual_storage.rs: VirtualStorage::before, months_since_last_reset"]}
{"id": "C18", "title": "Rolling virtual storage tracks the last window of flows", "statement": "A virtual storage with a rolling window of n time-steps has at any time a volume equal to its starting volume plus starting use minus the flows of the last n-1 completed steps and the current one: a flow is returned exactly n steps after it was taken.", "quantifier": "every window size, flow history and time-step length", "why_tests_cant": "The queue's length must be right in every history.", "anchors": ["pywr-core/src/virtual_storage.rs: before", "pywr-core/src/state/storage.rs: VirtualStorageHistory"]}
{"id": "C19", "title": "Parameter schedule respects dependencies", "statement": "Whenever a set of parameters builds successfully, the order in which parameters are evaluated puts every referenced parameter before its users, every parameter is scheduled exactly once, and the result (which value each parameter evaluates to) does not depend on the declaration order.", "quantifier": "every finite set of parameter definitions and every declaration order", "why_tests_cant": "The number of graphs and permutations is unbounded.", "anchors": ["pywr-core/src/parameters/mod.rs: ParameterCollectionBuilder::build"]}
{"id": "C20", "title": "Parameter build succeeds exactly on acyclic complete definitions", "statement": "Building terminates for every input; provided no parameter rejects its own definition, it succeeds if and only if names are unique, every referenced parameter is defined with a fitting type and references (including references to the previous time-step's value) are acyclic; otherwise it reports a duplicate exactly if a name is used twice, a missing parameter only if some reference to that name is undefined, and a circular reference only if the reported parameters contain a cycle.", "quantifier": "every finite set of parameter definitions", "why_tests_cant": "Classification of the failure depends on the global graph.", "anchors": ["pywr-core/src/parameters/mod.rs: ParameterCollectionBuilder::build"]}
{"id": "C21", "title": "Before-phase consumers never read values of the current after-phase", "statement": "A metric resolved for use before the solve reads only constant, simple or before-phase values, or, when explicitly requested with an initial fallback, the after-phase value of the previous time-step; requests that would need a current after-phase value are rejected at build time.", "quantifier": "every combination of parameter kind, requested value and consumer phase, and every run", "why_tests_cant": "The property is about all combinations and the evaluation order of a whole run.", "anchors": ["pywr-core/src/metric.rs: UnresolvedMetricF64::resolve and helpers", "pywr-core/src/network.rs: compute_components, after"]}
{"id": "C22", "title": "Delay parameter reproduces the past exactly", "statement": "A delay of n time-steps returns at step t the metric's value of step t-n, and the initial value for the first n steps, both when driven by model results and when driven by simple inputs; a delay of 0 driven by model results is an error in the first time-step, never a wrong value.", "quantifier": "every delay, initial value and input history", "why_tests_cant": "Histories are unbounded.", "anchors": ["pywr-core/src/parameters/delay.rs", "pywr-schema/src/nodes/delay.rs"]}
{"id": "C23", "title": "Rolling parameter aggregates exactly the trailing window", "statement": "A rolling parameter with window w and minimum m returns at step t the initial value if fewer than m values are available in the window, and otherwise the aggregation of exactly the last min(t,w) values, excluding the current step.", "quantifier": "every window, minimum, history and aggregation function", "why_tests_cant": "Histories are unbounded.", "anchors": ["pywr-core/src/parameters/rolling.rs"]}
{"id": "C24", "title": "Ratchet thresholds never release; switch has hysteresis", "statement": "A ratcheting threshold that has been active stays active for the rest of the run and is inactive before the first crossing; a ratcheting multi-threshold returns the running maximum; an asymmetric switch is on exactly if there was an earlier-or-current on signal with no full off signal since.", "quantifier": "every history of metric and threshold values", "why_tests_cant": "Temporal property over unbounded histories.", "anchors": ["pywr-core/src/parameters/threshold.rs", "pywr-core/src/parameters/multi_threshold.rs", "pywr-core/src/parameters/asymmetric.rs"]}
{"id": "C25", "title": "Control curve index identifies the zone", "statement": "For descending control curves, the control curve index is the number of curves strictly above the current proportional volume, is between 0 and the number of curves, and never decreases when volume falls; the piecewise value parameter selects the value of that zone.", "quantifier": "every list of curves and every volume", "why_tests_cant": "Lists are unbounded; ties at curve values matter.", "anchors": ["pywr-core/src/parameters/control_curves/index.rs", "pywr-core/src/parameters/control_curves/simple.rs"]}
{"id": "C26", "title": "Control curve interpolation stays within the neighbouring values", "statement": "With one value more than the curves plus one, interpolated control curve parameters return, for every volume between empty and full, a value between the two values bracketing the zone, equal to the configured value at each curve.", "quantifier": "every descending list of curves, value list of matching length, and volume in [0,1]", "why_tests_cant": "Unbounded lists and continuous inputs.", "anchors": ["pywr-core/src/parameters/control_curves/interpolated.rs", "pywr-core/src/parameters/control_curves/piecewise.rs", "pywr-core/src/parameters/interpolate.rs: interpolate"]}
{"id": "C27", "title": "Linear interpolation is exact at points and bounded between them", "statement": "For strictly increasing x values the interpolated parameter returns the tabulated y at each tabulated x, a value between the neighbouring y values in between, and outside the range either an error or the end value as configured.", "quantifier": "every table of at least two points and every query", "why_tests_cant": "Continuous inputs and unbounded tables.", "anchors": ["pywr-core/src/parameters/interpolate.rs: linear_interpolation"]}
{"id": "C28", "title": "Control curve apportionment conserves the value", "statement": "The upper and lower shares of an apportioned metric add up to the metric and both are between zero and the metric for non-negative metrics, whatever the control curve value.", "quantifier": "every metric and control curve value", "why_tests_cant": "Continuous inputs.", "anchors": ["pywr-core/src/parameters/control_curves/apportion.rs"]}
{"id": "C29", "title": "Profiles are total, periodic and bounded", "statement": "Daily, weekly, monthly and diurnal profiles return for every date one of the configured values, or when interpolating a convex combination of the two neighbouring values, never index out of range, and return the same value for the same calendar day in every year.", "quantifier": "every date and every profile", "why_tests_cant": "All dates of all years.", "anchors": ["pywr-core/src/parameters/profiles/*.rs"]}
{"id": "C30", "title": "Uniform drawdown profile falls uniformly", "statement": "The uniform drawdown profile is 1 on the reset day, falls by the same amount every day until the next reset, and never leaves the range between the residual proportion and 1.", "quantifier": "every reset day, residual and date", "why_tests_cant": "Leap years, wrap-around and reset position interact.", "anchors": ["pywr-core/src/parameters/profiles/uniform_drawdown.rs"]}
{"id": "C31", "title": "Aggregated recorder periods tile time and conserve totals", "statement": "For consecutive time-steps, the periods emitted by a monthly, annual or n-day aggregator are contiguous, each emitted period covers exactly the steps recorded in it, and mean values times period length add up to the recorded values times their durations.", "quantifier": "every sequence of consecutive time-steps and recorded values, every period rule", "why_tests_cant": "Unbounded sequences and calendar boundaries.", "anchors": ["pywr-core/src/recorders/aggregator/mod.rs"]}
{"id": "C32", "title": "No recorded value is lost at the end of a run", "statement": "When the run is finalised, the emitted aggregated periods including the final one together contain every recorded value, also for nested aggregators, and the final period's duration covers its values.", "quantifier": "every sequence of recorded values and every nesting of aggregators", "why_tests_cant": "End-of-run handling depends on where the run stops relative to the period.", "anchors": ["pywr-core/src/recorders/aggregator/mod.rs: Aggregator::finalise, calc_aggregation"]}
{"id": "C33", "title": "Aggregation functions are order independent and bounded", "statement": "Sum, mean, product, min, max, count and any aggregations do not depend on the order of their inputs; mean lies between min and max; min and max are attained; the empty case is the neutral element; means over periods weigh each value by the length of its period.", "quantifier": "every list of values", "why_tests_cant": "All lists.", "anchors": ["pywr-core/src/agg_funcs/mod.rs"]}
{"id": "C34", "title": "Memory recorder keeps scenario, time and metric apart", "statement": "The memory recorder stores for every scenario exactly the sequence of recorded period values in order; the long-format export contains exactly one record per scenario, period and metric with the right labels; when all aggregation functions are sums the metric-first and time-first orders agree.", "quantifier": "every number of scenarios, periods and metrics", "why_tests_cant": "Transposition errors hide in symmetric data.", "anchors": ["pywr-core/src/recorders/memory.rs"]}
{"id": "C35", "title": "Inter-network transfers deliver the right network's value", "statement": "In a multi-network model, a transfer delivers for every scenario the metric of the named network: of the current time-step if that network is listed earlier, of the previous time-step if it is listed later, and the initial value on the first time-step when one is given; no network may transfer from itself.", "quantifier": "every list of networks, transfers, scenarios and run lengths", "why_tests_cant": "Relative indexing errors need three or more networks and both directions.", "anchors": ["pywr-core/src/models/multi.rs: OtherNetworkIndex, compute_inter_network_transfers, MultiNetworkModelBuilder::build"]}
{"id": "C36", "title": "Scenarios are independent and parallel execution is equivalent to sequential", "statement": "Running scenarios in parallel in any order gives exactly the same states and recorded results as running them sequentially, and a scenario's results do not depend on which other scenarios are simulated.", "quantifier": "every number of scenarios, every schedule of the parallel runner and every run length", "why_tests_cant": "Schedules are nondeterministic.", "anchors": ["pywr-core/src/network.rs: step, step_par", "pywr-core/src/models/simple.rs"]}
{"id": "C37", "title": "Network names resolve to what was declared", "statement": "A successfully built network has unique node names, every edge connects the two named nodes, no node connects to itself, inputs have no incoming edges, outputs no outgoing edges, links both, and each name resolves to the node declared under that name.", "quantifier": "every network definition", "why_tests_cant": "All graphs.", "anchors": ["pywr-core/src/network.rs: NetworkBuilder::build", "pywr-core/src/node.rs: NodeBuilder::build"]}
{"id": "C38", "title": "Aggregated node proportions and ratios hold in every solution", "statement": "If an aggregated node has proportion factors f1..fk, every feasible solution gives the i-th further node the share fi of the group's total flow and the first node the remainder; with ratio factors, flows are in the given ratio; invalid factors are rejected rather than silently mis-applied.", "quantifier": "every list of nodes, factors and feasible solution", "why_tests_cant": "Number of nodes and factor values unbounded.", "anchors": ["pywr-core/src/aggregated_node.rs: get_norm_factor_pairs", "pywr-core/src/solvers/builder.rs: create_aggregated_node_factor_constraints"]}
{"id": "C39", "title": "Mutual exclusivity is enforced", "statement": "In every feasible solution of a network with a mutually exclusive group, at most the configured maximum and at least the configured minimum number of the group's nodes carry flow.", "quantifier": "every group, bound values and feasible solution, every time-step", "why_tests_cant": "Depends on constant and dynamic bounds and on update histories.", "anchors": ["pywr-core/src/solvers/builder.rs: create_node_constraints, create_mutual_exclusivity_constraints", "pywr-core/src/solvers/builder.rs: Lp::reset_row_bounds"]}
{"id": "C40", "title": "Loss links lose the configured share", "statement": "A loss link with a gross loss factor f loses f times its total inflow, with a net factor f it loses f times its outflow; in both cases inflow = outflow + loss, and a zero factor means no loss.", "quantifier": "every factor and feasible flow", "why_tests_cant": "Continuous parameters.", "anchors": ["pywr-schema/src/nodes/loss_link.rs", "pywr-core/src/aggregated_node.rs"]}
{"id": "C41", "title": "River split follows the configured proportions", "statement": "Each split of a river split node takes its configured proportion of the flow that does not go via the minimum residual flow route.", "quantifier": "every number of splits, factors and feasible flows", "why_tests_cant": "Errors only show with two or more splits.", "anchors": ["pywr-schema/src/nodes/river_split_with_gauge.rs"]}
{"id": "C42", "title": "Muskingum routing conserves mass", "statement": "Outflows computed with the Muskingum parameter's coefficients satisfy the storage continuity equation with storage K(X*inflow + (1-X)*outflow); a steady state is preserved; over any run cumulative inflow minus outflow equals the change of reach storage.", "quantifier": "every travel time, weight and inflow history", "why_tests_cant": "Unbounded histories, continuous parameters.", "anchors": ["pywr-core/src/parameters/muskingum.rs", "pywr-schema/src/nodes/river.rs"]}
{"id": "C43", "title": "Piecewise storage partitions the reservoir", "statement": "The max volumes of the stores of a piecewise storage add up to the total volume, the min volumes add up to the configured min volume and the initial volumes add up to the configured initial volume, filled from the bottom, each within its store's capacity.", "quantifier": "every ascending list of control curves, volumes and initial condition", "why_tests_cant": "Number of stores unbounded.", "anchors": ["pywr-schema/src/nodes/piecewise_storage.rs", "pywr-core/src/node.rs: StorageInitialVolume", "pywr-core/src/parameters/control_curves/volume_between.rs", "pywr-core/src/parameters/difference.rs"]}
{"id": "C44", "title": "Schema edges connect every connector pair", "statement": "An edge between two schema nodes creates exactly one network edge for every pair of output connector of the source and input connector of the target, and the edge's flow metric is the total of these.", "quantifier": "every pair of nodes with any number of connectors", "why_tests_cant": "Number of connectors unbounded.", "anchors": ["pywr-schema/src/edge.rs"]}
{"id": "C45", "title": "Array lookups clamp and never read the wrong row", "statement": "An array parameter with an offset returns at step t the entry t+offset, clamped to the ends of the data; it never reads outside the data and reports an error for empty data.", "quantifier": "every array, offset and time-step", "why_tests_cant": "Integer casts and signs at the ends.", "anchors": ["pywr-core/src/parameters/array.rs"]}
{"id": "C46", "title": "Hydropower target flow produces the target power", "statement": "The flow returned for a power target produces exactly that power at the given head when no flow limit binds, is zero at or below the minimum head, and always respects max and min flow.", "quantifier": "every head, target and limits", "why_tests_cant": "Continuous inputs.", "anchors": ["pywr-core/src/parameters/hydropower.rs", "pywr-core/src/utils.rs"]}
{"id": "C47", "title": "Decision variables stay within the activation function's range", "statement": "Whatever values an optimiser proposes, the value used by a parameter lies within the range configured by its activation function, and setting variables in one scenario does not affect another.", "quantifier": "every proposed value and activation function", "why_tests_cant": "Continuous inputs.", "anchors": ["pywr-core/src/parameters/activation_function.rs", "pywr-core/src/parameters/offset.rs", "pywr-core/src/network.rs: set_f64_parameter_variable_values"]}
{"id": "C48", "title": "Table lookups return the cell addressed by the key", "statement": "A scalar table loaded with n key columns (n from 1 to 4), n header rows, or both returns for a key of the right number of strings the number in the cell with that key, an entry-not-found error if there is none, and a key size error for any other key length; an array table returns the rest of the row or column. A reference from a model file addresses the cell by its row strings followed by its column strings, in the table with its name.", "quantifier": "every table and key", "why_tests_cant": "All table sizes and key lengths.", "anchors": ["pywr-schema/src/data_tables/scalar.rs", "pywr-schema/src/data_tables/vec.rs", "pywr-schema/src/data_tables/mod.rs"]}
{"id": "C49", "title": "River gauge costs and limits go to the right sub-node", "statement": "For a river gauge, the mrf limit bounds the flow of the mrf route only and the bypass cost is charged per unit of bypass flow.", "quantifier": "every parameterisation", "why_tests_cant": "The effect depends on which optional fields are set together.", "anchors": ["pywr-schema/src/nodes/river_gauge.rs"]}
{"id": "C50", "title": "Aggregated storage volume is consistent", "statement": "The proportional volume of an aggregated storage node is the total volume of its stores divided by their total max volume, lies in [0,1] whenever each store is within its capacity, and is 1 when the total capacity is zero.", "quantifier": "every list of stores", "why_tests_cant": "All lists.", "anchors": ["pywr-core/src/metric.rs: AggregatedStorageNodeProportionalVolume", "pywr-core/src/state/storage.rs: proportional_volume"]}
{"id": "C51", "title": "Radial basis function profiles pass through their points", "statement": "A profile interpolated with radial basis functions takes, on the ordinal day of the year of each of its points, the value of that point; it has a value on every date and the same value on the same calendar day of every year; setting new values or days through the optimisation interface moves it to the new points; conflicting points are reported.", "quantifier": "every set of points, every radial function, every date and every sequence of updates", "why_tests_cant": "All point sets and all days of all years.", "anchors": ["pywr-core/src/parameters/profiles/rbf.rs"]}
{"id": "C52", "title": "Link limits and soft constraints", "statement": "A link's flow stays between its minimum and maximum; with a soft minimum (maximum) the flow can use an extra priced allowance of up to the soft amount, so that the hard limits are kept whatever the soft constraints say.", "quantifier": "every link node of every model file, every combination of optional fields and every solved time-step", "why_tests_cant": "Which optional fields are set together matters; flows are continuous.", "anchors": ["pywr-schema/src/nodes/core.rs"]}
{"id": "C53", "title": "Rivers pass on or lose what arrives", "statement": "A plain river passes on its inflow; a river with a loss factor loses the configured share, whether or not it also has routing; its reported inflow, outflow and loss agree with the flows of its edges.", "quantifier": "every river node of every model file, every factor and every solved time-step", "why_tests_cant": "Continuous parameters and combinations of options.", "anchors": ["pywr-schema/src/nodes/river.rs"]}
{"id": "C54", "title": "Water treatment works", "statement": "The water leaving a treatment works is its inflow less the configured loss, stays within its limits, and is divided between a priced allowance of up to the soft minimum and the rest.", "quantifier": "every treatment works of every model file and every solved time-step", "why_tests_cant": "Continuous parameters and combinations of options.", "anchors": ["pywr-schema/src/nodes/water_treatment_works.rs"]}
{"id": "C55", "title": "Catchments and abstractions", "statement": "A catchment delivers exactly its flow. An abstraction divides its inflow between the minimum residual flow route (up to the residual flow), the bypass and the abstraction (within its limits), and nothing is lost.", "quantifier": "every catchment and abstraction of every model file and every solved time-step", "why_tests_cant": "Continuous parameters and combinations of options.", "anchors": ["pywr-schema/src/nodes/core.rs", "pywr-schema/src/nodes/abstraction.rs"]}
{"id": "C56", "title": "Reservoirs and their attached flows build", "statement": "A reservoir with any combination of compensation, spill, rainfall, evaporation and leakage can be built into a network when the fields it needs are given, and the attached flows are between the reservoir and the right side of the network.", "quantifier": "every reservoir of every model file", "why_tests_cant": "Combinations of optional fields.", "anchors": ["pywr-schema/src/nodes/reservoir.rs"]}
{"id": "C57", "title": "Parts of different nodes never share a name", "statement": "The nodes, aggregated nodes and virtual storages created from a model file that loads have pairwise distinct names, so one node's parts can never be taken for another's.", "quantifier": "every model file of any size", "why_tests_cant": "Number of nodes, splits and steps unbounded.", "anchors": ["pywr-schema/src/nodes/mod.rs", "pywr-schema/src/network.rs"]}
{"id": "C58", "title": "A node's flows are the totals of its edges", "statement": "The inflow (outflow) a node reports is the total of the flows reported by the edges to (from) it.", "quantifier": "every node kind with such an attribute, every model file and every solved time-step", "why_tests_cant": "Number of edges, parts and slots unbounded.", "anchors": ["pywr-schema/src/nodes", "pywr-schema/src/edge.rs"]}
{"id": "C59", "title": "A delay node hands on its inflow after exactly the delay", "statement": "The outflow of a delay node is its inflow of as many time-steps ago as the delay says, and the initial value before that; so nothing is lost or created in between.", "quantifier": "every delay, initial value, model file and length of run", "why_tests_cant": "Unbounded runs and delays; depends on the order of parameter evaluation and solve in each step.", "anchors": ["pywr-schema/src/nodes/delay.rs", "pywr-core/src/parameters/delay.rs"]}
{"id": "C60", "title": "A time series gives each time-step the data of its period", "statement": "After loading, a time series has exactly one row for each time-step of the model: the data of that date if it has the time-step's resolution, the mean of the data in the time-step if it is finer, and the last known value before it if it is coarser. A series that does not cover the time-steps is an error.", "quantifier": "every table of data in any order, every resolution, every start, end and kind of time-step", "why_tests_cant": "Dates, resolutions and lengths are unbounded and the cases interact (slicing before resampling, windows anchored at the first row).", "anchors": ["pywr-schema/src/timeseries/align_and_resample.rs:align_and_resample", "pywr-core/src/timestep.rs:PywrDuration"]}
{"id": "C61", "title": "A reference to a time series gives the data it names", "statement": "A reference to a column of a time series gives at every time-step the value of that column of that data set at that time-step, and a reference by scenario gives the column of the current scenario, whatever other references the model has. Data sets are found by their names, which must be unique.", "quantifier": "every collection of data sets, every sequence of references and every time-step", "why_tests_cant": "Parameters are shared between references by name, so a wrong sharing shows only for particular combinations of references.", "anchors": ["pywr-schema/src/timeseries/mod.rs:LoadedTimeseriesCollection", "pywr-core/src/parameters/array.rs"]}
{"id": "C62", "title": "Each interior-point step is a damped Newton step that keeps the iterate positive", "statement": "For a constraint matrix without empty rows whose equality rows are linearly independent, the sparse factorisation and substitution return the one solution of the normal equations; each step of an unfinished problem moves along the exact solution of the linearised optimality equations by a factor in (0,1]; after any number of steps all flows, slacks and their multipliers are strictly positive; and every step multiplies the violation of every constraint (primal and dual) by one common factor in [0,1].", "quantifier": "every sparse matrix with any number of rows, columns and entries, every right-hand side and objective, every number of steps", "why_tests_cant": "Fill-in patterns and iterates are unbounded; a wrong index in the factorisation shows only for particular sparsity patterns.", "anchors": ["ipm-common/src/lib.rs: SparseNormalCholeskyIndices", "ipm-simd/src/path_following_direct.rs: normal_eqn_step", "ipm-simd/src/common.rs"]}
{"id": "C63", "title": "A returned interior-point solution is feasible and optimal within the tolerances", "statement": "If the interior-point solve returns, each lane's x is positive, satisfies every constraint within the primal tolerance (relative to 1 + |x|), and no feasible point has a better objective by more than an explicit bound made of the three tolerances.", "quantifier": "every constraint matrix, right-hand side, objective, tolerances and iteration limit for which solve returns", "why_tests_cant": "Optimality compares with all feasible points.", "anchors": ["ipm-simd/src/lib.rs: PathFollowingDirectSimdSolver::solve", "ipm-simd/src/common.rs: primal_feasibility, dual_feasibility"]}
{"id": "C64", "title": "Scenarios solved together by the interior-point solver do not affect each other, nor does an earlier solve", "statement": "Every lane of a joint solve returns the result it would return on its own, all lanes succeed together iff each succeeds on its own within the same iteration limit, and the result does not depend on what previous solves left in the solver's buffers.", "quantifier": "every number of lanes, all data, every buffer content and iteration limit", "why_tests_cant": "Depends on all combinations of problems that finish at different iterations and all histories of the solver.", "anchors": ["ipm-simd/src/path_following_direct.rs: normal_eqn_step", "ipm-simd/src/lib.rs: solve"]}
{"id": "C65", "title": "The interior-point solver gives every scenario feasible, nearly cheapest flows, independent of the other scenarios", "statement": "When the interior-point network solver returns, the flows of every scenario are positive, satisfy link mass balance, node minimum and maximum flows and storage volumes within the primal tolerance, and cost no more than any feasible allocation of the network up to an explicit bound made of the tolerances. A scenario's flows do not depend on the other scenarios, on how scenarios are grouped into lanes, or on earlier time-steps.", "quantifier": "every network (links connected to non-link nodes, storages with an edge), number of scenarios, history of earlier states, tolerances and iteration limit for which solve returns", "why_tests_cant": "Compares with all allocations of all networks and all groupings and histories of scenarios.", "anchors": ["pywr-core/src/solvers/ipm_simd/mod.rs: SimdIpmF64Solver::setup, solve, SolverBuilder::create, BuiltSolver::update", "ipm-simd/src/lib.rs: PathFollowingDirectSimdSolver::solve"]}
{"id": "C66", "title": "Output files hold every recorded value under its own scenario, metric and time", "statement": "A CSV or HDF5 output file contains exactly the series its metric set records, no value missing, repeated or in another's place. In the wide CSV format, the column of a scenario and a metric is headed by the metric's name and attribute, the scenario's simulation id and its label, holds the recorded series of that metric in that scenario in order, and stands beside the start dates of those values; all records have the same length. In the long CSV format the records with a given simulation id, metric set, name and attribute are exactly the recorded series with its start and end dates, and every record is one of these; with n decimal places values are within half a unit of the last place and otherwise exact. In HDF5 every metric has its own data set whose entry for a time-step and a scenario is the recorded value.", "quantifier": "for all metric sets with or without aggregation, all numbers of scenarios, metrics and time-steps, all values, names and labels, and all ways of printing numbers and dates", "why_tests_cant": "Tests write one small model's output and compare it with a stored file; that columns and records never shift against their headings must hold for every number of scenarios and metrics and every aggregation frequency, where a save may write nothing.", "anchors": ["pywr-core/src/recorders/csv.rs: CsvWideFmtOutput, CsvLongFmtOutput", "pywr-core/src/recorders/hdf.rs: HDF5Recorder, require_metric_dataset", "pywr-core/src/recorders/metric_set.rs: MetricSet", "pywr-schema/src/outputs/csv.rs: CsvOutput"]}
{"id": "C67", "title": "Virtual nodes of a model file act on the flows and volumes of the nodes they name", "statement": "An aggregated node of a model file limits the total of the flows its references stand for, and its proportions, ratios, coefficients and exclusivity hold between these flows, one per reference, whatever parts the nodes named are made of; the inflow and outflow it reports are that total. A virtual storage falls in each time-step in season by the number of days times the sum of the factor times the flow of each reference, does not change out of season, stays within its limits, and is reset on the days and to the volume the file declares; a rolling window gives back what was used before it. An aggregated storage reports the total of the volumes of the nodes it names, and this over the total of their capacities.", "quantifier": "for all model files that load, all virtual nodes in them, all references with or without a component, all factors, limits, resets and windows, and all solved time-steps and runs", "why_tests_cant": "Tests load a few files with one virtual node each over plain nodes; references go through names, components and nodes that become several parts, and the constraint must be about the flow the user sees for every combination of these.", "anchors": ["pywr-schema/src/nodes/virtual_nodes/aggregated.rs: AggregatedNode, AggregatedStorageNode, create_metric", "pywr-schema/src/nodes/virtual_nodes/virtual_storage.rs: VirtualStorageNode, RollingWindow", "pywr-schema/src/nodes/components.rs: NodeComponent", "pywr-core/src/metric.rs: MetricF64::get_value", "pywr-core/src/virtual_storage.rs: VirtualStorage"]}
{"id": "C68", "title": "A metric set records what it lists and everything its filters ask for, once, under a label that says what it is", "statement": "A metric set of a model file records, first and in the order of the file, the metrics it lists, each holding the value of the component named (a node or virtual node without an attribute: its usual one; a parameter without a phase: its value before the solve). After these it records, for each filter switched on, every node, virtual node, edge or parameter phase that is not recorded yet, exactly once, and nothing else. Two recorded components never share type, name and attribute. A set is refused exactly if an entry names something that does not exist or nothing at all is recorded. Its aggregator is that of the file, level by level.", "quantifier": "Every model file whose network loads and whose parameters have different names; every list of metrics, combination of filters and nesting of aggregators.", "why_tests_cant": "Tests load a few files with one filter each; whether something is recorded twice, left out or mislabelled depends on every combination of node types, attributes, phases and lists.", "anchors": ["pywr-schema/src/metric_sets/mod.rs: MetricSetFilters::create_metrics, MetricSet::add_to_network, MetricAggregator::load", "pywr-schema/src/metric.rs: Metric::load_as_output, Metric::load, Metric::attribute, Metric::sub_type", "pywr-schema/src/edge.rs: Display for Edge", "pywr-core/src/recorders/metric_set.rs: UnresolvedOutputMetric"]}
{"id": "C69", "title": "Converting a Pywr v1 file keeps every component with its meaning or reports it", "statement": "Converting a v1 network gives a network in which every node and parameter of the old file is kept, in order, with its name, type and the meaning of every value (a constant is the same constant; a reference to a parameter refers to it, or to the data it held if it was a DataFrame; a parameter written inside a component is a parameter of the new file that means the same), or is reported by name. Every edge keeps its ends and slots or is reported; every table is reported; nothing else is. No two parameters and no two time series of the new file share a name. Every parameter and time series of the new file comes from one of the old file. The conversion completes unless the file has a component of a type it leaves as todo.", "quantifier": "Every v1 network, with parameters nested to any depth, in which names are used once and no given name looks like a generated one, nodes and parameters have different names, every parameter has meta data, no control curve lacks values, and virtual nodes and index attributes do not refer to a DataFrame by name.", "why_tests_cant": "Tests convert a handful of files; whether a generated name collides, an error is lost or a reference is left dangling depends on the nesting and naming of the whole file.", "anchors": ["pywr-schema/src/network.rs: NetworkSchema::from_v1", "pywr-schema/src/v1.rs: ConversionData, TryFromV1 for ParameterMeta, try_convert_node_attr, try_convert_parameter_attr", "pywr-schema/src/metric.rs: TryFromV1<ParameterValueV1> for Metric, IndexMetric", "pywr-schema/src/parameters/mod.rs: TryFromV1<ParameterV1> for ParameterOrTimeseriesRef", "pywr-schema/src/timeseries/mod.rs: TryFromV1<DataFrameParameterV1> for ConvertedTimeseriesReference", "pywr-schema/src/edge.rs: TryFromV1<EdgeV1>", "pywr-schema/src/nodes/slots.rs"]}
{"id": "C70", "title": "A parameter of a model file computes what its type defines from the metrics it names", "statement": "In every run of a loaded model, each parameter of a node and of the network has in every time-step, before or after the solve as configured, the value its type defines from the metrics it names: constant, minimum/maximum/negative with threshold, division, aggregation, indexed array, interpolation, polynomial, offset, discount factor, threshold and multi-threshold with or without ratchet and returned metrics, switch, control curves, delay, rolling window, profiles and drawdown, with the documented defaults for settings left out. A reference to a local parameter means the parameter of that name in the same node, and local parameters never clash with those of other nodes or of the network. A file whose references resolve and whose numbers of values agree loads.", "quantifier": "Every file with any number of parameters of any of the 31 modelled types in nodes and network, any metrics, any dates and number of time-steps, any values of the metrics of nodes, edges and transfers.", "why_tests_cant": "Tests load a few files with one parameter of a type; which scope a reference is resolved in and which default applies depends on the type, the place of the parameter and the other names of the file, and the value on the whole history of the metrics.", "anchors": ["pywr-schema/src/parameters/mod.rs: Parameter::add_to_network, ConstantValue", "pywr-schema/src/parameters/core.rs", "pywr-schema/src/parameters/aggregated.rs", "pywr-schema/src/parameters/thresholds.rs", "pywr-schema/src/parameters/control_curves.rs", "pywr-schema/src/parameters/delay.rs", "pywr-schema/src/parameters/rolling.rs", "pywr-schema/src/parameters/profiles.rs", "pywr-schema/src/parameters/interpolated.rs", "pywr-schema/src/parameters/polynomial.rs", "pywr-schema/src/parameters/offset.rs", "pywr-schema/src/parameters/discount_factor.rs", "pywr-schema/src/parameters/indexed_array.rs", "pywr-schema/src/parameters/asymmetric_switch.rs", "pywr-schema/src/network.rs: NetworkSchema::add_to_model (parameters)", "pywr-schema/src/metric.rs: Metric::load, IndexMetric::load"]}
{"id": "C71", "title": "Whichever LP solver is chosen, the problem it solves in every time-step is the one the network defines", "statement": "A solver is refused for a network exactly if the network uses a feature the solver does not support (CLP: mutual exclusivity, CBC: factors that vary). After a solver (HiGHS, CLP, CBC or microlp) has been set up and any number of time-steps have been solved with it, the problem its library is asked to solve has exactly the solutions and the costs of the linear programme the network defines for the current time-step, although only what changed is sent to the library. Every time-step the network can express reaches the library. With a correct library the flows of the edges are then those of an optimal solution (for CBC up to 1e-10).", "quantifier": "Every network, solver, order of the exclusive sets, history of time-steps with any values of metrics and volumes, and every answer of the library.", "why_tests_cant": "Tests run a few models with each solver and compare flows; the four solvers keep different parts of the problem between time-steps and update them by different calls, so a stale bound, cost or coefficient shows only in particular networks and histories.", "anchors": ["pywr-core/src/solvers/builder.rs: SolverBuilder, BuiltSolver::update, coefficients_to_update, apply_coefficients", "pywr-core/src/solvers/highs/mod.rs: HighsSolver", "pywr-core/src/solvers/clp/mod.rs: ClpSolver", "pywr-core/src/solvers/cbc/mod.rs: CbcSolver", "pywr-core/src/solvers/microlp/mod.rs: MicroLpSolver", "pywr-core/src/network.rs: required_features, check_solver_features, setup_solver"]}
{"id": "C72", "title": "A model file, new or converted from v1, is run for the scenarios and time-steps it asks for", "statement": "A model file without combinations is run for exactly one scenario for every choice of one member of each of its groups among those the group asks for (all, a slice, a list of indices or a list of labels), in lexicographic order; with combinations it is run for those, in the order listed; without scenarios it is run once. It is accepted exactly if the names of its groups are different, each group has as many labels as members, slices are not empty and stay within the group, and labels exist. Converting a v1 file keeps every scenario with its name, size and labels, its combinations, its dates and its time-step, or reports an error; the converted file is run for the scenarios of the v1 slices.", "quantifier": "Every list of groups, sizes, labels, slices, combinations, and every start, end and time-step.", "why_tests_cant": "Tests load and convert a few files; slices, labels and combinations interact, and a wrong default or boundary selects other members only for some groups.", "anchors": ["pywr-schema/src/model.rs: ScenarioDomain, ScenarioGroup, ScenarioGroupSubset, Timestepper, ModelSchema::from_v1, TryFrom<Scenario>, convert scenarios", "pywr-core/src/scenario.rs: ScenarioDomainBuilder", "pywr-core/src/models/mod.rs: ModelDomain"]}
{"id": "C73", "title": "A model file of several networks is run as it says", "statement": "A model file with several networks becomes a model with those networks, in the order of the file, each loaded from what is written or from the file named (in the data directory unless the path is absolute). In every time-step and scenario of the file each transfer delivers the value of its metric, loaded in the network it names and in no other: of the current time-step if that network comes earlier, of the previous one if later, or its initial value in the first time-step. The file is accepted exactly if its scenarios and dates are, its networks can be read, names are different and every transfer names another network of the file. Validating the file reports the problems of each of its networks.", "quantifier": "Every list of networks, inline or by path, with any transfers between them, any scenarios and time-steps, and every way networks and metrics are loaded (loading a metric may change the network it is taken from).", "why_tests_cant": "Tests use two networks with one transfer; that loading one transfer does not change another network, and that names and places agree, matters with more networks and transfers in both directions.", "anchors": ["pywr-schema/src/model.rs: MultiNetworkModelSchema::create_model_builder, validate, MultiNetworkTransfer, MultiNetworkEntry", "pywr-schema/src/network.rs: NetworkSchemaRef", "pywr-core/src/models/multi.rs: MultiNetworkModelBuilder"]}
{"id": "C74", "title": "Visitors of a model file reach everything they are for", "statement": "Visiting the metrics, the paths or the node references of a model file calls the visitor once for every metric, file path or reference to a node that the file holds anywhere, in the order of the file. The mutable visitor visits the same places in the same order; what it writes stands in the file at that place afterwards and nothing else is changed. So renaming a node through the mutable visitor leaves no reference to the old name and changes only the places that referred to it.", "quantifier": "Every model file: any components with any fields nested to any depth, and every visitor, including visitors with state.", "why_tests_cant": "Tests visit one file; whether something is missed depends on where in which component it stands.", "anchors": ["pywr-schema/src/visit.rs: VisitMetrics, VisitPaths, VisitNodeReferences", "pywr-schema-macros/src/lib.rs: impl_visit_metrics, impl_visit_paths, impl_visit_node_references", "pywr-schema/src/network.rs: VisitPaths, VisitMetrics and VisitNodeReferences for NetworkSchema", "pywr-schema/src/parameters/python.rs: PythonParameter"]}
{"id": "C75", "title": "Parameters written in Python are given the present and keep to their scenario", "statement": "The arguments in the model file reach the user's Python class or function as the same values. Every scenario has an object of the class of its own. At each call the info object shows the time-step, the scenario and the values the configured metrics and indices have at that moment, and nothing under other keys; what the code returns, if it is of the parameter's type, is the parameter's value, and anything else is an error. So if objects of the class keep to themselves, the results of a scenario are those of one object called with that scenario's time-steps in order, whatever the other scenarios do and in whatever order they are run. The methods called are those the class has.", "quantifier": "Every Python class or function (its effect on the interpreter is arbitrary), any metrics and indices, any number of scenarios and every order of their calls, every returned value and every JSON argument.", "why_tests_cant": "Tests run one class for a few steps; the user's code, the metrics and the interleaving of scenarios are arbitrary, and stale values or shared objects show only after some history.", "anchors": ["pywr-core/src/parameters/py.rs: ParameterInfo, PyCommon, PyClassParameter::{setup, call_method}, PyFuncParameter::compute, PyClassParameterBuilder::build", "pywr-core/src/state/mod.rs: MultiValue", "pywr-schema/src/py_utils.rs: try_load_optional_py_args, try_load_optional_py_kwargs, try_json_value_into_py", "pywr-schema/src/parameters/python.rs: PythonParameter::add_to_network"]}
{"id": "C76", "title": "The OpenCL solver gives each scenario the flows ipm-simd gives for its state alone", "statement": "The OpenCL interior point solver runs its scenarios in chunks, one work item of the device per scenario, on shared flat buffers. In whatever order the device runs the work items, however the scenarios are divided in chunks, whatever the buffers held at first and whatever was solved before, each scenario gets the flows ipm-simd gives for its state alone (100 iterations for each start of the kernel), so they are close to the best allocation of that state; the call fails only when ipm-simd fails for one of the states. Setting up works for any number of scenarios.", "quantifier": "Every network whose links are joined to a node that is not a link and whose storages have edges, both precisions, any number of scenarios and chunks, every schedule of the work items in every start of the kernel, all states and histories of calls.", "why_tests_cant": "The schedule is the device's: a race between work items, a wrong stride in a flat buffer or a value left by the previous time-step shows only for some orders, chunk sizes or histories, and most test machines have no OpenCL device.", "anchors": ["ipm-ocl/src/common.cl, path_following_direct.cl: the kernels", "ipm-ocl/src/lib.rs: GPUIPM", "pywr-core/src/solvers/ipm_ocl/mod.rs: BuiltSolver, SolverBuilder, ClIpmF32Solver, ClIpmF64Solver"]}
{"id": "C77", "title": "The outputs of a model file deliver the metric sets they name", "statement": "A model file is accepted if and only if its metric sets have different names and every output can be served (its metric sets are defined, a wide CSV file asks for one, HDF5 is compiled in). In a run the outputs do not disturb each other: the run succeeds with all of them if and only if it does with each alone, and leaves the same of each. A CSV or HDF5 file is where its file name and the output directory say and holds the recorded series of the set it names; a memory output can be got by its name, holds the recorded series of its set for every scenario and metric, and its single value is made with the functions over metrics, time and scenarios that the file gives, in the order it gives. Nothing else is among the results.", "quantifier": "All lists of metric sets and outputs, all numbers of scenarios and time-steps, all values, all aggregation functions and orders.", "why_tests_cant": "The tests run one output in one scenario with one recorded period, where the functions over time and scenarios are not used at all; that the right function meets the right dimension, and that outputs do not disturb each other, concerns all combinations of outputs, scenarios and steps.", "anchors": ["pywr-schema/src/outputs/mod.rs: Output::add_to_model", "pywr-schema/src/outputs/csv.rs: CsvOutput", "pywr-schema/src/outputs/hdf.rs: Hdf5Output", "pywr-schema/src/outputs/memory.rs: MemoryOutput, MemoryAggregation", "pywr-core/src/recorders/{csv,hdf,memory}.rs: the builders, aggregated_value, to_dataframe", "pywr-core/src/network.rs: metric_set_map, setup_recorders, save_recorders, finalise, NetworkResult"]}
{"id": "C78", "title": "A model file is read, written and read again without loss", "statement": "Whatever is read from a model file (or any part of one) can be written again, and reading what was written, in whatever order its maps come, gives the same value; no two values are written alike. What is written says what the file said: every member of the file is there again with the same content (a number given as an integer may be written as a float, a date with its time of day, an aliased name with its own), and nothing is there that the file did not say, but for empty members and documented defaults. A member that a node, virtual node, parameter, time series, metric or time-step does not know is refused. A number out of the range of its type is refused.", "quantifier": "All trees of JSON without repeated keys, all 154 types that occur in model files, all orders in which maps are written.", "why_tests_cant": "The tests read and write the example files; that reading undoes writing for every value, that no untagged alternative catches what another has written, and that nothing of a file is dropped concerns all values of all types, nested without bound.", "anchors": ["pywr-schema/src/model.rs: ModelSchema, MultiNetworkModelSchema, from_str, from_path, to_json_string", "pywr-schema/src/network.rs: NetworkSchema", "pywr-schema/src/{nodes,parameters,timeseries,outputs,data_tables,metric_sets}: all types with Serialize and Deserialize", "pywr-schema/src/{metric,edge,digest,agg_funcs}.rs", "pywr-schema/src/model.rs: TimeDomain (start and end are jiff::civil::DateTime)"]}
{"id": "C79", "title": "Calls into the solver libraries stay within their memory", "statement": "Whatever the network and however the run goes, every call a solver makes into HiGHS, CLP or CBC is made on an object that exists, passes arrays at least as long as the library reads or writes, and names only rows and columns that the object has (each row lists a column once, row starts are in order); a solution is read only right after a solve of which the library reported an optimal solution, and has a place for every edge; the calls together give the library the problem of C71. When a solver is dropped its object is given back to the library.", "quantifier": "All well-formed networks, all orders of the exclusive sets, all histories of time-steps with any statuses of the library, up to any failure.", "why_tests_cant": "An access beyond the end of an array behind a raw pointer usually goes unnoticed; no test shows that it cannot happen for some network, with some combination of variable rows, binary columns and changing coefficients.", "anchors": ["pywr-core/src/solvers/highs/mod.rs: Highs::add_cols, add_rows, change_objective_coefficients, change_row_bounds, change_coefficient, run, primal_column_solution", "pywr-core/src/solvers/clp/mod.rs: ClpSimplex, ClpSolver::from_builder, Drop", "pywr-core/src/solvers/cbc/mod.rs: Cbc::add_cols, add_rows, change_*, primal_column_solution, Drop", "pywr-core/src/solvers/builder.rs: BuiltSolver::num_cols, num_rows, num_non_zero"]}
{"id": "C80", "title": "However a run is started, it is the run that was asked for", "statement": "A model run from the command line, from Python or from Rust uses the file, solver, directories, number of threads and requirements the caller gave; options a solver does not take are refused; the same call made twice is the same run; the command line and Python agree on what the options mean. Stepping a model by hand and then running the rest gives the results of one run, with any mixture of thread pools and schedules. Converting files writes each converted file under its own name and changes nothing else, and stops at the first file it cannot convert.", "quantifier": "All options and dictionaries of keyword arguments, all solvers and sets of compiled features, all numbers of steps by hand with any pools and schedules, all directories and file contents.", "why_tests_cant": "The interfaces repeat the same code per solver, and each test runs one combination of solver and options once; a call that changes its caller's dictionary only shows in the next call.", "anchors": ["pywr-cli/src/main.rs: run, run_multi, convert, v1_to_v2, handle_conversion_errors", "pywr-core/src/models/simple.rs: Model::run_py, step, run_with_state", "pywr-core/src/models/multi.rs: MultiNetworkModel::run_py", "pywr-core/src/solvers/*/settings.rs: builders and build_*_settings_py", "pywr-python/pywr/__init__.py: run_from_path", "pywr-python/pywr/cli.py: run"]}
{"id": "C81", "title": "Double precision arithmetic keeps volumes, interpolation and aggregation right", "statement": "Computed in IEEE 754 double precision, a storage's volume is within its limits after every time-step; a flow within the limits given to the solver never ends the run with a mass-balance error; interpolated values lie between the values they are interpolated from, follow the order of the arguments and are close to the exact ones; the largest, smallest, sum and mean of values are right to within rounding and do not depend on the order; a threshold's predicate and its negation exclude each other; the number of whole days of a time-step is exact; a NaN is never taken for a number.", "quantifier": "All doubles, including subnormal numbers, infinities and NaN, up to the sizes each statement names; lists of any length.", "why_tests_cant": "There are 2^64 doubles for every argument; tests compare a few values with a tolerance, which hides results just outside a range and never meets the sizes at which a fixed tolerance is smaller than one unit in the last place.", "anchors": ["pywr-core/src/state/storage.rs: StorageState::add_in_flow, add_out_flow, finalise, clamp", "pywr-core/src/node.rs: NodeBounds for storage, StorageInitialVolume::get_absolute_initial_volume", "pywr-core/src/virtual_storage.rs: get_available_volume_bounds", "pywr-core/src/parameters/interpolate.rs: interpolate", "pywr-core/src/parameters/threshold.rs: Predicate::apply", "pywr-core/src/agg_funcs/mod.rs: AggFuncF64", "pywr-core/src/timestep.rs: PywrDuration::whole_days, fractional_days"]}
{"id": "C82", "title": "A model's data is read from the files it names and checked against their checksums", "statement": "Every table, time series and array parameter is read from the file at the place its url names, a relative url being meant from the data directory, and no other file has an effect on it. If a checksum is given, the data is used only if the digest of the file is the one written; otherwise loading fails with an error. Each table and time series is found under its own name, a name used twice being an error. The checksum, index column and keywords of a version 1 data frame or array are kept when it is converted. An array parameter returns the entry of the time-step, in the column of the scenario.", "quantifier": "All contents of files, including files that change while the model is loaded, all digest functions and readers, all paths, names, keywords and lists of tables and time series, all scenario groups and time-steps.", "why_tests_cant": "Tests read a handful of fixture files that never change and whose checksums are written in one way; every spelling of a name, keyword or hash, and every moment at which a file may change, is a different case.", "anchors": ["pywr-schema/src/digest.rs: Checksum::check, validate_hex_digest, TryFromV1", "pywr-schema/src/data_tables/mod.rs: CsvDataTable::load_f64, make_path, LoadedTableCollection::from_schema", "pywr-schema/src/timeseries/polars_dataset.rs: PolarsTimeseries::load", "pywr-schema/src/timeseries/pandas.rs: PandasTimeseries::load", "pywr-schema/src/timeseries/pandas_load.py: load_pandas", "pywr-schema/src/timeseries/mod.rs: LoadedTimeseriesCollection::from_schema, TryFromV1 for ConvertedTimeseriesReference", "pywr-schema/src/parameters/tables.rs: TablesArrayParameter"]}
{"id": "C83", "title": "Each type of version 1 parameter and node becomes one that means the same, or is refused with an error that names it", "statement": "When a version 1 model is converted, each parameter becomes one whose values are those its attributes describe (constants, limits, aggregations, thresholds, control curves, interpolations, polynomials, profiles, rolling means, discount factors, drawdowns), provided its values are converted so; each node becomes the node with the same costs, limits, factors, steps, resets and windows. A component is accepted if and only if its attributes are present and supported; otherwise the error names the component and the attribute at fault. Nothing a component has is dropped without an error.", "quantifier": "All version 1 parameters and nodes of the supported types, all their attributes, all conversions of values, all sets of virtual nodes, all time-steps and values of what they refer to.", "why_tests_cant": "Each of some forty types has optional attributes that exclude or override each other and may each fail to convert; tests convert a few example files in which they are well-formed.", "anchors": ["pywr-schema/src/v1.rs: try_convert_node_attr, try_convert_parameter_attr, try_convert_initial_storage, try_convert_control_curves", "pywr-schema/src/parameters/mod.rs: TryFromV1<ParameterV1>", "pywr-schema/src/parameters/{core,aggregated,control_curves,thresholds,interpolated,polynomial,profiles,rolling,...}.rs: TryFromV1", "pywr-schema/src/nodes/mod.rs: TryFromV1<Box<CoreNodeV1>>", "pywr-schema/src/nodes/*.rs: TryFromV1"]}
{"id": "C84", "title": "What a run records for a parameter of a model file is what its type defines, whichever implementation it gets", "statement": "A parameter may be evaluated once when the model is set up, in each time-step before anything of the network is read, before the solve, after the solve, or before the solve with its memory updated after it; which of these depends on what its metrics refer to, and each has its own implementation. If a run completes, then the values of every parameter in every time-step, and those recorded, are the ones that the type and attributes of the parameter define from what its metrics read in that run; which implementation was chosen, and in which order parameters were evaluated, makes no difference. Parameters are accepted if and only if their names differ, what they refer to exists without a cycle, and every value they refer to is one that the other parameter has by the time it is read.", "quantifier": "All model files with parameters of the modelled types, all networks they are part of (other parameters, nodes, solvers), all numbers of time-steps and dates, all parameters and time-steps.", "why_tests_cant": "The implementation and the order depend on the whole graph of references between parameters; a test of a type constructs one implementation with metrics of one kind.", "anchors": ["pywr-core/src/parameters/mod.rs: ParameterCollection, GeneralParameterEntry, ParameterStates", "pywr-core/src/parameters/{aggregated,aggregated_index,delay,rolling,threshold,multi_threshold,asymmetric,constant,...}.rs: build, setup, compute, before, after", "pywr-core/src/metric.rs: try_into_constant_metrics_f64, try_into_simple_metrics_f64", "pywr-core/src/network.rs: setup_network, compute_components, after"]}
{"id": "C85", "title": "The parameters of a model file, the nodes, the solver and the recorders work together as the file says", "statement": "If a run of a network completes, then in every time-step the flow recorded for a node lies within the limits that the node is given, where a limit that is a parameter has the value that the type and attributes of the parameter define for that time-step, and a limit that is a metric of the network has the value of the state before the solve. A parameter that reads flows before the solve gets those of the time-step before (0 in the first), and a recorder gets those of the same time-step. The volume of a storage starts with what its initial volume gives with the metrics of the first time-step, passes unchanged from one time-step to the next, and changes in each by the recorded inflow less the recorded outflow, times the length of the time-step, and stays within the limits its metrics give. How full a storage is recorded to be is its recorded volume over the maximum volume of the time-step, and a parameter that reads it before the solve gets the recorded one of the time-step before. The flows of an aggregated node are the sums of those of its nodes. An active virtual storage is charged with the recorded flows of its nodes times their factors, keeps its volume between time-steps, and has at its reset times the volume that the metrics of that time-step give. This holds whichever solution the solver chooses.", "quantifier": "All model files with parameters of the modelled types, all networks, all solvers that return feasible solutions, all numbers of time-steps with positive lengths, all nodes and time-steps.", "why_tests_cant": "The values of parameters depend on the state the solver left behind, and the solver's programme depends on the parameters; tests fix one network and compare one run.", "anchors": ["pywr-core/src/network.rs: step, compute_components, after", "pywr-core/src/metric.rs: MetricF64::get_value", "pywr-core/src/solvers/highs/mod.rs: solve", "pywr-core/src/state/mod.rs: complete", "pywr-core/src/node.rs: before, get_constraints"]}
{"id": "C86", "title": "The parameters that nodes make for themselves do their work in a run", "statement": "Delay nodes, rivers with a delay or with Muskingum routing, turbines, piecewise storages and reservoirs with rain or evaporation make parameters of their own. If a run of a network with these parameters completes, then in every time-step each of them has the value its node defines from the flows, volumes and parameters of the run. So, whichever solution the solver chooses, the flow recorded as leaving a delay node is the one recorded as entering it as many time-steps before as the delay says, and in the first time-steps the initial value of the file; the recorded flows of a river with Muskingum routing keep to the equation of continuity, from the initial flows of the file; and the power recorded for a turbine is what the flow recorded through it produces, and meets its target.", "quantifier": "All model files, networks, solvers that return feasible solutions, and numbers of time-steps; all delay nodes, delays and initial values; all rivers with a literal travel time and weight; all turbines with a literal target.", "why_tests_cant": "The values that nodes compute for themselves go through the order in which parameters are built and evaluated, the solver's limits and the state; a test fixes one network, one delay and one solution.", "anchors": ["pywr-schema/src/nodes/delay.rs: add_to_model", "pywr-schema/src/nodes/river.rs: add_routing_to_network", "pywr-schema/src/nodes/reservoir.rs: add_to_network, get_area_metric", "pywr-schema/src/nodes/piecewise_storage.rs: add_to_network", "pywr-core/src/parameters/difference.rs", "pywr-core/src/parameters/control_curves/volume_between.rs", "pywr-schema/src/nodes/turbine.rs: add_to_network", "pywr-core/src/parameters/muskingum.rs", "pywr-core/src/parameters/hydropower.rs"]}
{"id": "C87", "title": "The deficit recorded for an output is what it got less than its demand", "statement": "If the deficit of an output node is recorded in a run, then in every time-step it is the maximum flow in force for that node less the flow into it, and never negative, whichever solution the solver chooses; an output that takes all it may take has no deficit.", "quantifier": "All model files, networks, solvers that return feasible solutions, output nodes, maximum flows and numbers of time-steps.", "why_tests_cant": "The deficit is read after the solve and the limit before it; a test with a constant demand cannot tell the two apart, nor can it try every solution of the solver.", "anchors": ["pywr-schema/src/nodes/core.rs: OutputNode::create_metric", "pywr-core/src/parameters/deficit.rs: DeficitParameter, DeficitParameterBuilder", "pywr-core/src/metric.rs: NodeMaxFlow", "pywr-core/src/node.rs: FlowConstraints::get_max_flow"]}
{"id": "C88", "title": "Recorders hold what was simulated, and assertions let exactly the runs pass that agree with what is expected", "statement": "A run with array and assertion recorders completes if and only if, in every time-step and scenario, the value of each recorder's metric can be read and, for assertions, agrees with the one expected there; then every array recorder holds the value of its metric at the row of the time-step and the column of the scenario, and nothing else is expected of the run. An error names the recorder it comes from.", "quantifier": "All lists of recorders of the four kinds, metrics, expected values and functions, margins, numbers of time-steps and scenarios.", "why_tests_cant": "The tests of the code rest on these recorders: an assertion that skips a row, a column or a recorder would make every test pass that should not.", "anchors": ["pywr-core/src/recorders/mod.rs: Array2Recorder, AssertionF64Recorder, AssertionU64Recorder, AssertionFnRecorder", "pywr-core/src/network.rs: save_recorders", "pywr-core/src/models/simple.rs: step, step_multi_scenario"]}
{"id": "C89", "title": "Nodes are built with the metrics they are declared with, and an error names the attribute it is about", "statement": "When a network is built, the flow limits of a node, the cost, initial volume and volume limits of a storage node or virtual storage, and the factors of a relationship are exactly the metrics declared for them; building fails if and only if one of them is not found or is not simple enough for its use or, for a storage node, the initial volume is missing; and the error names the attribute whose metric is at fault.", "quantifier": "All declarations of limits, initial volumes and relationships and all ways in which metrics are found or not.", "why_tests_cant": "The same code is written out for each attribute; a swapped or missing one shows only for a declaration that uses that attribute in that way.", "anchors": ["pywr-core/src/node.rs: NodeBuilder", "pywr-core/src/virtual_storage.rs: VirtualStorageNodeBuilder", "pywr-core/src/aggregated_node.rs: AggregatedNodeBuilder, ProportionalFactorsBuilder, RatioFactorsBuilder, CoefficientFactorsBuilder, ExclusivityBuilder"]}
