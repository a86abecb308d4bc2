{"id": "C01", "title": "Creating periods from dates partitions the time line", "statement": "For every strictly increasing list of at least two dates, Periods.create_periods returns periods that are non-empty, follow each other without gap or overlap, and such that an instant lies in one of them exactly when it lies between the first and the last date (extended to the beginning/end of time by include_before/include_after); that period is unique.", "quantifier": "all strictly increasing date lists, all flag combinations, all instants", "why_tests_cant": "The number of dates and the position of the instant are unbounded; a test fixes both.", "anchors": ["src/libecalc/common/time_utils.py:Periods.create_periods", "src/libecalc/common/time_utils.py:Period.__contains__"]}
{"id": "C02", "title": "Period intersection is the intersection of the instants", "statement": "For any two non-empty periods, Period.intersects is true exactly when some instant lies in both, and Period.intersection returns a period that contains exactly the instants contained in both, or None when there are none; intersection is commutative and associative where defined.", "quantifier": "all pairs (triples) of non-empty periods, all instants", "why_tests_cant": "Boundary coincidences (touching, nested, equal ends) form an unbounded family of cases.", "anchors": ["src/libecalc/common/time_utils.py:Period.intersects", "src/libecalc/common/time_utils.py:Period.intersection"]}
{"id": "C03", "title": "Selecting the periods inside a period selects exactly those", "statement": "For a contiguous list of periods and a period whose ends, clamped to the list, are dates of the list, get_periods / get_period_indices select exactly the periods contained in the given period, in order; a period that does not intersect selects nothing.", "quantifier": "all contiguous period lists and all query periods", "why_tests_cant": "Index arithmetic at both ends must hold for every list length and every clamp.", "anchors": ["src/libecalc/common/time_utils.py:Period.get_period_indices", "src/libecalc/common/time_utils.py:Period.get_periods"]}
{"id": "C04", "title": "A temporal model has exactly one model in force at every instant", "statement": "A temporal model given by date keys is accepted iff its dates are in increasing order; once accepted, get_model at any instant from the first date on returns the model of the latest key that is not after the instant, and raises before the first date.", "quantifier": "all date-keyed models and all instants", "why_tests_cant": "Quantifies over every key list and every lookup date, including instants exactly on a key.", "anchors": ["src/libecalc/common/temporal_model.py:TemporalModel", "src/libecalc/common/time_utils.py:Period.__contains__"]}
{"id": "C05", "title": "Restricting a temporal model to a target period does not change what is in force", "statement": "For a temporal model with dates in increasing order, or with disjoint non-empty periods, define_time_model_for_period keeps, for each instant of the target period, exactly the model that was in force there before, and defines no model outside the target period. (For dates out of order and for overlapping periods the claim is false: refuted with witnesses.)", "quantifier": "all temporal models, target periods and instants", "why_tests_cant": "Requires agreement at every instant for every overlap pattern of models and target period.", "anchors": ["src/libecalc/common/time_utils.py:define_time_model_for_period", "src/libecalc/common/time_utils.py:default_temporal_model"]}
{"id": "C06", "title": "Resampled periods follow the calendar and keep the range", "statement": "resample_periods of a series from midnight to midnight, to a day, month or year frequency, returns contiguous non-empty periods which start at the original start and end at the original end (both included), whose inner boundaries are exactly the day/month/year starts strictly between them. (For a series that starts off midnight the claim is false: refuted with a witness.)", "quantifier": "all start/end dates at midnight, all three frequencies", "why_tests_cant": "The calendar (leap years, month lengths) and the range length are unbounded.", "anchors": ["src/libecalc/common/time_utils.py:resample_periods", "src/libecalc/common/time_utils.py:create_start_and_end_dates_for_periods"]}
{"id": "C07", "title": "Temporal expressions evaluate to the expression in force in every period", "statement": "Evaluating a temporal expression, whose dates are period boundaries, over a variables map gives a vector with one value per global period: the value, in that period, of the expression in force there, and 0 where no expression is defined.", "quantifier": "all variables maps, all temporal expressions whose dates are on the time grid, all periods", "why_tests_cant": "Slicing, evaluating and writing back must line up for every number of expressions and periods.", "anchors": ["src/libecalc/common/variables.py:VariablesMap._evaluate_temporal", "src/libecalc/common/variables.py:VariablesMap.get_subset"]}
{"id": "C08", "title": "The subset of variables for a period is the part inside that period", "statement": "VariablesMap.get_subset_for_period returns, for every period inside the global period whose ends are on the time grid, the variables of exactly the global periods inside it; get_subset_for_timestep returns the one period starting there. (The code comments promise that a period reaching outside the global period is clamped; that is false: refuted with witnesses.)", "quantifier": "all variables maps and query periods", "why_tests_cant": "Clamping matters only for particular relative positions of the two periods.", "anchors": ["src/libecalc/common/variables.py:VariablesMap.get_subset_for_period"]}
{"id": "C09", "title": "Calendar-day and stream-day rates convert back and forth without loss", "statement": "Converting a rate series to the other rate type and back gives the original values wherever regularity is non-zero; where regularity is zero the stream-day rate is zero (never a division error). Volumes are the same computed from either representation.", "quantifier": "all values, all regularities, all lengths", "why_tests_cant": "Holds per element for arbitrary regularity vectors including zeros.", "anchors": ["src/libecalc/common/utils/rates.py:Rates.to_stream_day", "src/libecalc/common/utils/rates.py:Rates.to_calendar_day", "src/libecalc/common/utils/rates.py:TimeSeriesRate.to_volumes"]}
{"id": "C10", "title": "Resampling volumes conserves volume", "statement": "Resampling a volume (or cumulative volume) series to a frequency yields for each new period the original volume accumulated between the new period's ends, prorated linearly by time; with both ends included the total over all periods is unchanged.", "quantifier": "all contiguous series of any length and any resampling grid", "why_tests_cant": "Interpolation positions relative to the original dates are unbounded.", "anchors": ["src/libecalc/common/utils/rates.py:TimeSeriesVolumesCumulative.resample", "src/libecalc/common/utils/rates.py:TimeSeriesVolumes.resample"]}
{"id": "C11", "title": "Resampling a rate conserves volume and keeps the two rate types consistent", "statement": "A resampled rate series has, in each new period, the time-weighted average of its calendar-day rates, so its volume equals the volume of the original rates in that period; its regularity is the ratio of calendar-day and stream-day volumes (zero without stream-day volume). The time-weighted average of the stream-day rates is kept unless the calendar-day volume of the period is zero (that it is always kept is false: refuted with a witness).", "quantifier": "all rate series, regularities and grids", "why_tests_cant": "Averages over arbitrary splits of periods; zero stream-day volume is a special case.", "anchors": ["src/libecalc/common/utils/rates.py:TimeSeriesRate.resample", "src/libecalc/common/utils/rates.py:TimeSeriesVolumes.to_rate"]}
{"id": "C12", "title": "Cumulative volumes are running sums and invert to volumes", "statement": "cumulative() is the running sum (NaN counts as zero), to_volumes() of it gives back the volumes, the last cumulative value is the total, and cumulative volumes never decrease when volumes are non-negative.", "quantifier": "all volume series", "why_tests_cant": "Inductive over the length.", "anchors": ["src/libecalc/common/utils/rates.py:Rates.compute_cumulative", "src/libecalc/common/utils/rates.py:TimeSeriesVolumesCumulative.to_volumes"]}
{"id": "C13", "title": "Splitting a time series at a date and merging gives the series back", "statement": "For a contiguous series, for_period on the two halves around an inner date followed by merge (in either argument order) or extend gives back the original series; merge and extend reject overlapping or non-adjacent series. For rates with regularity the same holds of merge, and of extend in time order. (That extend of a rate series rejects non-adjacent series or works in either order is false: refuted with witnesses.)", "quantifier": "all series, all inner dates", "why_tests_cant": "All split points and lengths.", "anchors": ["src/libecalc/common/utils/rates.py:TimeSeries.merge", "src/libecalc/common/utils/rates.py:TimeSeries.for_period", "src/libecalc/common/utils/rates.py:TimeSeries.extend"]}
{"id": "C14", "title": "Adding rates adds them in both rate types", "statement": "Adding two rate series of the same type and unit gives a series whose own values, and whose values converted to the other rate type, are the sums of the operands' - also when the operands have different regularity, provided the summed rates are not zero in the period; addition is commutative and mismatching units or rate types are refused. (Without the proviso it is false: a period where both rates are zero gets a calendar-day rate that is not a number; refuted with a witness.)", "quantifier": "all pairs of rate series and regularities", "why_tests_cant": "Different regularities per period make the derived regularity data dependent.", "anchors": ["src/libecalc/common/utils/rates.py:TimeSeriesRate.__add__"]}
{"id": "C15", "title": "A resampled boolean is true only if the original was true throughout", "statement": "TimeSeriesBoolean.resample is true in a new period exactly when the original value is true in every original period that overlaps it, for a series that starts at midnight or whose start is not included; a series starting inside a day raises ValueError when its start is included.", "quantifier": "all boolean series and grids", "why_tests_cant": "Every overlap pattern of old and new periods.", "anchors": ["src/libecalc/common/utils/rates.py:TimeSeriesBoolean.resample"]}
{"id": "C16", "title": "Resampling a plain series keeps the value in force", "statement": "TimeSeries.resample (forward fill) gives, at each new period start, the value of the latest original period that starts exactly on the new grid at or before it, and no value if there is none; that is the value in force whenever the original period in force starts on the new grid. (That it is always the value in force is false: a change between two new dates is lost, refuted with a witness.)", "quantifier": "all series and grids", "why_tests_cant": "Off-grid changes occur only for particular date patterns.", "anchors": ["src/libecalc/common/utils/rates.py:TimeSeries.resample"]}
{"id": "C17", "title": "Filling a series out to more periods changes nothing that was there", "statement": "fill_values_for_new_periods keeps the value of every existing period, gives every other period the fill value, and refuses to drop a period.", "quantifier": "all series, all new period lists", "why_tests_cant": "Any subset pattern of periods.", "anchors": ["src/libecalc/common/utils/rates.py:TimeSeries.fill_values_for_new_periods"]}
{"id": "C18", "title": "Unit conversions are invertible and path independent", "statement": "Converting a value from one unit to another and back gives the value; converting via an intermediate unit gives the same as converting directly; converting to the same unit is the identity.", "quantifier": "all registered unit pairs and triples, all values", "why_tests_cant": "Holds for every real value, and registry triples include indirect ones.", "anchors": ["src/libecalc/common/units.py:Unit.to"]}
{"id": "C19", "title": "Expressions evaluate with the usual precedence and associativity", "statement": "Evaluating the token sequence obtained by writing out any arithmetic expression tree (with only the parentheses the precedence rules require) gives the value of the tree; operators of equal precedence associate to the left.", "quantifier": "all expression trees and all variable values", "why_tests_cant": "Nesting depth and operator mixes are unbounded.", "anchors": ["src/libecalc/expression/expression_tree.py:get_postfix", "src/libecalc/expression/expression_tree.py:get_tree"]}
{"id": "C20", "title": "Vector evaluation is element-wise", "statement": "The value of an expression in period i depends only on the variables' values in period i, and the result has one value per period; division by zero does not raise.", "quantifier": "all expressions, variable vectors and periods", "why_tests_cant": "Holds for every vector length and expression.", "anchors": ["src/libecalc/expression/expression.py:Expression.evaluate", "src/libecalc/expression/expression_tree.py:Node.evaluate"]}
{"id": "C21", "title": "A malformed expression is rejected", "statement": "A token sequence in which no two operands stand side by side (no operand or closing parenthesis directly followed by an operand or opening parenthesis) evaluates only if it is a well-formed infix expression, and when its references are bound the sequences that evaluate are exactly the well-formed ones. Every accepted sequence has balanced parentheses and more operands than operators. (Sequences with two operands side by side are accepted, with the first operand dropped: shown with a witness.)", "quantifier": "all token sequences", "why_tests_cant": "The set of malformed sequences is infinite.", "anchors": ["src/libecalc/expression/expression_tree.py:get_tree"]}
{"id": "C22", "title": "Variables may be declared in any order", "statement": "The computed value of every variable is independent of the order in which variables are declared; resolution succeeds exactly when every referenced variable exists and there is no cyclic reference, otherwise an error is raised (it never loops). Names must not clash with each other or with time series.", "quantifier": "all variable sets and all declaration orders", "why_tests_cant": "Permutations and dependency graphs are unbounded.", "anchors": ["src/libecalc/presentation/yaml/mappers/variables_mapper/variables_mapper.py:_evaluate_variables"]}
{"id": "C23", "title": "A temporal variable takes in each period the expression of the latest date", "statement": "A variable defined by dates written in increasing order, none strictly inside a period, evaluates in each period to the expression with the latest date not after the period, and to 0 before the first date. (For dates written in another order, or strictly inside a period, the claim is false: refuted with witnesses.)", "quantifier": "all temporal variables and periods", "why_tests_cant": "Order of keys matters and is not enumerated by tests.", "anchors": ["src/libecalc/presentation/yaml/mappers/variables_mapper/variables_mapper.py:VariableProcessor.process"]}
{"id": "C24", "title": "Time series input is zero before its first date and follows the chosen interpolation", "statement": "fit_to_time_vector gives 0 before the first date; on a data date the given value; between two dates the previous value (RIGHT), next value (LEFT) or the linear interpolation; after the last date the last value if extrapolating and 0 otherwise.", "quantifier": "all series, interpolation types and target dates", "why_tests_cant": "All relative positions of data and target dates.", "anchors": ["src/libecalc/presentation/yaml/domain/time_series.py:TimeSeries.fit_to_time_vector"]}
{"id": "C25", "title": "The global time vector is sorted, unique, bounded and complete", "statement": "The global time vector is strictly increasing, starts at START and ends at END when given, and contains exactly the START/END dates and every influencing or additional date between them.", "quantifier": "all date collections and START/END settings", "why_tests_cant": "Sets of dates are unbounded.", "anchors": ["src/libecalc/presentation/yaml/mappers/variables_mapper/get_global_time_vector.py:get_global_time_vector"]}
{"id": "C26", "title": "Emissions are fuel times factor, per emission and per period", "statement": "For a fuel that changes over time and does not list an emission twice, the emissions reported are exactly those of its fuels, each once; the rate reported in each period is the fuel rate times the factor of the fuel in force in that period (kilograms to tons), and zero if that fuel does not have the emission. (A fuel that lists an emission twice, even as CO2 and co2, is accepted and then fails with an assertion error: refuted with a witness.)", "quantifier": "all fuel rate series, fuels over time, emission factors", "why_tests_cant": "Temporal fuel models times emission names is unbounded.", "anchors": ["src/libecalc/domain/infrastructure/energy_components/fuel_model/fuel_model.py:FuelModel.evaluate_emissions"]}
{"id": "C27", "title": "The generator set supplies exactly the consumers' power", "statement": "The power requirement of a generator set in each period is the sum of its consumers' power; where a model is in force its fuel follows the electricity-to-fuel function of that requirement (none for no power, interpolated in the table, smallest/largest tabulated fuel outside it), the margin is the largest tabulated power minus the requirement, and the period is flagged invalid exactly when the margin is negative. (Where no model is in force the period is invalid with margin 0 and no fuel even when power is required, so 'margin negative exactly in the invalid periods' is false there: refuted with a witness.)", "quantifier": "all numbers of consumers, periods and loads", "why_tests_cant": "Arbitrary numbers of consumers and periods.", "anchors": ["src/libecalc/domain/infrastructure/energy_components/generator_set/generator_set_component.py:GeneratorSetEnergyComponent"]}
{"id": "C28", "title": "A consumer system uses the first operational setting that works", "statement": "For consumers with distinct names whose result in a period depends only on the input of that period: in every period the consumer system uses the first operational setting, in priority order, for which all consumers are valid, and the last setting if none is; the reported consumer results, validity and total energy are those of that setting, and cross-over is flagged exactly where some consumer gets more than it asked for. The priority optimizer likewise returns the first priority with only valid results, the last if none, and that priority's results.", "quantifier": "all numbers of settings, consumers and periods", "why_tests_cant": "Selection is made per period from arbitrary validity tables.", "anchors": ["src/libecalc/common/priority_optimizer.py:PriorityOptimizer.optimize", "src/libecalc/domain/infrastructure/energy_components/legacy_consumer/system/consumer_function.py"]}
{"id": "C29", "title": "Cross-over moves excess rate without losing any", "statement": "After cross-over every consumer has its requested rate less what it sends away (its excess over its maximum, if the receiver's discharge pressure is not lower) plus what it receives; the total requested rate is unchanged; a consumer that exceeds its maximum and receives nothing keeps exactly its maximum. (A consumer that both sends and receives can end above its maximum although its own receiver has room: refuted with a witness.)", "quantifier": "all rate vectors, maxima and cross-over maps", "why_tests_cant": "Chains of cross-overs of any length.", "anchors": ["src/libecalc/domain/infrastructure/energy_components/legacy_consumer/system/consumer_function.py"]}
{"id": "C30", "title": "Power loss makes the consumer's net energy equal to the request", "statement": "Applying a power loss factor f gives a usage u' with u'*(1-f) = u in every period with f other than 1; f = 0 changes nothing, and f = 1 gives a value that is not finite.", "quantifier": "all usages and factors", "why_tests_cant": "For all real values and lengths.", "anchors": ["src/libecalc/presentation/yaml/domain/expression_time_series_power_loss_factor.py"]}
{"id": "C31", "title": "A bisection result is a probe that was accepted, within the boundary", "statement": "The bisection search only returns a value at which the probe was accepted (the last accepted one), inside the search boundary; it raises DidNotConvergeError exactly when it accepted no probe, and otherwise only passes on the error of its last probe; it evaluates the probe at most the given number of times. For a window of accepted points, the result is close to the end of the window towards which the probe steers, within the tolerance or the boundary width divided by 2^iterations.", "quantifier": "all probe functions, boundaries, tolerances", "why_tests_cant": "The probe is an arbitrary function.", "anchors": ["src/libecalc/process/process_solver/search_strategies.py:Bisect"]}
{"id": "C32", "title": "lowest_true / highest_true find the edge of a monotone predicate", "statement": "For a predicate that switches once over the boundary, lowest_true (highest_true) returns a point where the predicate holds and which is close to the true edge, within the relative tolerance or within the boundary width divided by 2^iterations (or the exact end when it holds there), and None only if the predicate fails at both ends. For an arbitrary predicate the result satisfies it and a point nearby on the searched side does not. (That the tolerance itself is always reached is false with the default 20 iterations: refuted with a witness.)", "quantifier": "all predicates and boundaries; monotone ones for the accuracy part", "why_tests_cant": "Accuracy over all edge positions.", "anchors": ["src/libecalc/process/process_solver/search_strategies.py:Bisect._first_true"]}
{"id": "C33", "title": "maximize_x_given_boolean_condition_function returns a feasible x close to the maximum", "statement": "For a condition that is true up to a threshold at or above the lower end, the returned x satisfies the condition and lies within the tolerance (or the range divided by 2^iterations) below the threshold or the upper end. For an arbitrary condition the result is the lower end or satisfies the condition. (When the condition does not hold at the lower end the result may violate it: refuted with a witness.)", "quantifier": "all thresholds and boundaries", "why_tests_cant": "For all thresholds.", "anchors": ["src/libecalc/common/numeric_methods.py:maximize_x_given_boolean_condition_function"]}
{"id": "C34", "title": "The sum of distributed rates equals the incoming rate", "statement": "Splitting a common stream over items, one rate fraction per item, with any overflow declarations that are not cyclic (cyclic ones are refused), gives one stream per item, with the inlet's fluid, pressure and temperature, whose standard rates sum to the incoming rate times the sum of the fractions; each item's rate is a share plus the excess of the items that pass on to it minus the excess it passes on. The distribution succeeds whenever shares and reported excess rates are in range.", "quantifier": "all inlet rates, fractions, overflow graphs and capacities", "why_tests_cant": "Overflow graphs and capacities are unbounded.", "anchors": ["src/libecalc/process/stream_distribution/common_stream_distribution.py:CommonStreamDistribution"]}
{"id": "C35", "title": "Each item gets its own fraction of the common stream", "statement": "Without excess rate, a common stream distribution deals the fractions out in the topological order of the overflow graph, so each item gets its own fraction when no overflow is declared, when every overflow goes to the item declared last, or when the fractions are equal. (That each item always gets its own fraction is false: refuted with a witness, where declaring an overflow A to B that is never used swaps the fractions of B and C.)", "quantifier": "all item lists, fractions and overflow declarations", "why_tests_cant": "Depends on the declared overflow graph only through excess rates.", "anchors": ["src/libecalc/process/stream_distribution/common_stream_distribution.py:CommonStreamDistribution.get_streams"]}
{"id": "C36", "title": "Priorities: the first valid distribution is chosen", "statement": "PrioritiesStreamDistribution returns the streams of the first distribution in priority order for which every item accepts its stream and those of the last distribution if there is none; when it raises, every distribution before the failing call was refused by some item.", "quantifier": "all lists of distributions and capacities", "why_tests_cant": "Arbitrary lists.", "anchors": ["src/libecalc/process/stream_distribution/priorities_stream_distribution.py"]}
{"id": "C37", "title": "Recirculation conserves mass", "statement": "A recirculation loop changes the flow only between its mixer and its splitter: after the splitter the fluid, mass rate and standard rate are what they were before the mixer, whatever the recirculation rate and whatever loops are nested inside, as long as the units inside neither add nor remove anything (compressors, chokes, pressure droppers, temperature setters). Inside, the standard rate is larger by exactly the recirculation rate, and the loop fails only if a unit inside it fails. With a liquid remover inside, the outlet does depend on the recirculation rate.", "quantifier": "all streams, rates and numbers of units inside the loop", "why_tests_cant": "Any unit sequence and rate.", "anchors": ["src/libecalc/process/process_units/direct_mixer.py", "src/libecalc/process/process_units/direct_splitter.py"]}
{"id": "C38", "title": "Merging solver configurations: the later one wins, nothing is lost", "statement": "Merging configuration lists contains each handler exactly once, with the configuration from the last list mentioning it, and is associative.", "quantifier": "all configuration lists", "why_tests_cant": "Unbounded lists and ids.", "anchors": ["src/libecalc/process/process_solver/configuration.py:merge_configurations", "src/libecalc/process/process_solver/solver.py:Solution.combine"]}
{"id": "C39", "title": "A successful solution meets the pressure constraint", "statement": "Whenever the section solver reports success, applying the returned configuration and running the section gives an outlet pressure equal to the target within the target's tolerance, provided the root finder answers with a root within that tolerance. For a choke behind the compressors no root finder is involved. For a choke in front of the compressors, and for a separate target per stage, the root finder must also have asked for the value at its answer last; without that, and with a root finder that only promises to be near a root, a reported success can miss the target (witnesses given).", "quantifier": "all pipelines, streams and targets", "why_tests_cant": "For all chart functions and control strategies.", "anchors": ["src/libecalc/process/process_solver/pipeline_section_solver.py"]}
{"id": "C40", "title": "Solving does not depend on what was solved before", "statement": "The solution the section solver returns for a target and an inlet stream is the same whatever the section's own shaft, recirculation loops and choke were set to before the call, whatever was solved before and however it ended; and solving changes no other unit.", "quantifier": "all histories of previous solves", "why_tests_cant": "State leakage depends on the history.", "anchors": ["src/libecalc/process/process_solver/pipeline_section_solver.py", "src/libecalc/process/process_solver/process_pipeline_runner.py"]}
{"id": "C41", "title": "Equal pressure ratio targets multiply up to the requested target", "statement": "The multi-shaft equal-ratio solver gives intermediate targets that grow by one common ratio and whose last target is exactly the requested pressure.", "quantifier": "all inlet pressures, targets and numbers of sections", "why_tests_cant": "Any number of sections.", "anchors": ["src/libecalc/process/process_solver/multi_shaft_equal_ratio_solver.py"]}
{"id": "C42", "title": "Pump evaluation keeps mass and energy consistent", "statement": "Every physical liquid stream and positive discharge pressure is evaluated. While there is flow, the operating rate is the largest of the requested rate, the minimum flow and the chart's minimum flow line, the recirculation is the difference to the requested rate, the operating head is the larger of the required head and the chart's lower edge, discharge pressure and choke pressure drop follow from the head, and power is mass rate times head over an efficiency between 0 and 1; nothing of this is negative as long as the chart's heads are not. Failure is reported exactly when the operating point is to the right of the chart or above its fastest curve, the streams around the pump balance, and the reported maximum rate separates valid from failing rates for a reachable head. Without flow everything is zero and the pressure is unchanged.", "quantifier": "All charts, minimum flows, physical liquid streams, discharge pressures and series of them; all closest-point functions with non-negative distance", "why_tests_cant": "All operating points.", "anchors": ["src/libecalc/process/pump/pump.py:Pump.evaluate"]}
{"id": "C43", "title": "Mixing streams conserves mass and enthalpy", "statement": "Mixing any non-empty list of streams, not all of zero rate and with one equation of state, yields the sum of the mass rates, the lowest pressure, the mass-weighted enthalpy and, for every component, the sum of the molar rates; the order of the streams does not matter; it raises exactly in the other cases or when the flash raises.", "quantifier": "all non-empty lists of streams", "why_tests_cant": "Any number of streams.", "anchors": ["src/libecalc/process/fluid_stream/stream_mixer.py:mix_streams"]}
{"id": "C44", "title": "The cache never returns a wrong value", "statement": "For every sequence of put/get/clear calls (from any number of threads, each call being atomic under the lock), get(k) returns the value of the last put for k since the last clear, or None if it was evicted or never put; the cache never exceeds its maximum size; the entry evicted is the least recently used; hits+misses equals the number of gets.", "quantifier": "all operation histories, thread interleavings and sizes", "why_tests_cant": "Histories are unbounded.", "anchors": ["src/ecalc_neqsim_wrapper/cache_service.py:LRUCache"]}
{"id": "C45", "title": "Delta profile between a model and itself is zero, and swapping models changes sign", "statement": "Comparing two results: models without common time are refused; otherwise the comparison covers the common time, split wherever either model splits it, and lists every component of either model once. At every instant of the common time the difference of a component's energy, power or emission is the changed model's amount minus the reference model's amount, where each amount is the value of the original period containing the instant; a component or emission missing in one model counts as zero. Components whose units differ are reported as errors instead of compared. Swapping the models negates the differences; comparing a model with itself gives zero (or NaN where the value is NaN). Not guaranteed: a component that reports power in only one of the models has no power in the difference.", "quantifier": "all pairs of results as eCalc produces them (components on the model's periods, unique ids), with any periods, components and emissions, and any iteration order of sets of names", "why_tests_cant": "Period unions and component sets are unbounded.", "anchors": ["src/libecalc/presentation/simple_result/simple.py:SimpleResultData.delta_profile"]}
{"id": "C46", "title": "Export aggregates every matching attribute once and fills the rest with zero", "statement": "An export query of an installation whose category is not the wanted one gives nothing. Otherwise, for finite values on the installation's periods, it gives for every period the sum of the values of the matching attributes (zero if none), and attributes that do not match the filters do not contribute; with a frequency each new period gets the share of those sums that falls in it, and nothing is lost in total. A report has one group per installation and one column per applier that wants it, each cell the printed (possibly negated) value; the table of a group has one row per period in order. The exported maximum usage is not the maximum over a resampled period, a NaN of one attribute zeroes the whole sum, and columns of equal name show the first one's values.", "quantifier": "all attribute sets, filters, units, frequencies, applier lists and installations", "why_tests_cant": "Arbitrary attribute sets.", "anchors": ["src/libecalc/presentation/exporter/queries.py"]}
{"id": "C47", "title": "Component graph traversal visits every component exactly once, parents first", "statement": "For a graph made with add_node, add_edge and add_subgraph: the sorted node ids list every node exactly once with every edge pointing forward, and sorting fails exactly when the graph has a cycle; the breadth-first tree from a node lists that node first and then every node that can be reached from it exactly once, in order of distance; recursive successors are exactly the other reachable nodes, each once; the predecessor is returned exactly when there is one; an edge can only be added between known nodes. (Breadth-first traversal from a node does not visit nodes that cannot be reached from it.)", "quantifier": "all component graphs", "why_tests_cant": "Arbitrary graphs.", "anchors": ["src/libecalc/common/graph.py:Graph"]}
{"id": "C48", "title": "Tabulated energy functions interpolate between the given points", "statement": "A 1D tabulated/sampled energy function is exact on its data points, lies between neighbouring values in between, and is monotone if the data are; outside the data it is invalid (or constant, where documented).", "quantifier": "all tables and arguments", "why_tests_cant": "Continuum of arguments.", "anchors": ["src/libecalc/domain/infrastructure/energy_components/legacy_consumer/tabulated"]}
{"id": "C49", "title": "Regularity validation", "statement": "A regularity is accepted exactly when every value it gives lies between 0 and 1, and then has in each period the value written for that period. (A regularity given as the number 0 means 1, as if none were given: refuted with a witness; 0 in a temporal regularity means 0.)", "quantifier": "all regularity inputs", "why_tests_cant": "All values and lengths.", "anchors": ["src/libecalc/domain/regularity.py:Regularity"]}
{"id": "C50", "title": "Formatting to a precision is correct rounding", "statement": "Formatting a finite number with a precision p of at least 0 keeps p decimals for numbers below one and one decimal fewer for each further digit before the decimal sign (never fewer than none), is within half a unit of the last kept decimal, has no superfluous zeros, and leaves integers other than zero as they are. Formatting the formatted number again gives the same number and the same text (except that a printed -0 becomes 0). Precisions below -1 are refused with a ValueError; precision -1 is accepted although it rounds 1 to 0. Rounding a whole result replaces every float by its rounded value, keeps everything else and the structure, and rounding twice is rounding once.", "quantifier": "all numbers and precisions", "why_tests_cant": "All magnitudes.", "anchors": ["src/libecalc/common/math/numbers.py:Numbers.format_to_precision"]}
{"id": "C51", "title": "A reference COLLECTION;HEADER gives the column of that collection", "statement": "For collections with distinct names and validated resources, the variables mapped from time series are exactly the references COLLECTION;HEADER, and each has in every period the value that the interpolation rule (C24) gives for that column at the period start. A validated resource has at least one date, no repeated date and a value per date in every column. Headers that differ by more than letter case find their own columns (for headers that differ only in case it is false: both give the first column, refuted with a witness). Of several collections with the same name, the last one whose file exists is used. The dates are read from the column DATE, otherwise DATES, otherwise the first column, and the remaining columns are the series. A collection interpolates and extrapolates as configured: DEFAULT holds the value until the next date and gives zero after the last.", "quantifier": "all lists of collections, resources, headers and periods", "why_tests_cant": "Names, orders of dates and numbers of columns are unbounded.", "anchors": ["src/libecalc/presentation/yaml/domain/time_series_collections.py:TimeSeriesCollections", "src/libecalc/presentation/yaml/domain/time_series_resource.py:TimeSeriesResource", "src/libecalc/presentation/yaml/mappers/variables_mapper/variables_mapper.py:map_yaml_to_variables", "src/libecalc/presentation/yaml/yaml_entities.py:MemoryResource.get_column"]}
{"id": "C52", "title": "A turbine's fuel is its load divided by efficiency and heating value", "statement": "For a turbine table with efficiencies between 0 and 1, power within the (adjusted) table uses fuel such that energy in times the interpolated efficiency equals the load; no load uses no fuel; the exceeded flag is raised exactly when the unadjusted load exceeds the largest tabulated load. (With an adjusted maximum load the flag is therefore wrong, and positive power below the smallest tabulated load uses no fuel without being flagged: both refuted with witnesses.)", "quantifier": "all turbine tables, adjustments, heating values and loads", "why_tests_cant": "All tables and all loads.", "anchors": ["src/libecalc/domain/infrastructure/energy_components/turbine/turbine.py:Turbine.evaluate"]}
{"id": "C53", "title": "Cable loss is added exactly where power comes from shore", "statement": "The power production of a generator set is its power requirement, plus the requirement times the cable loss in exactly the periods that lie within an entry (the first such) whose category is power from shore.", "quantifier": "all categories over time, periods, losses and requirements", "why_tests_cant": "Temporal categories and series are unbounded.", "anchors": ["src/libecalc/presentation/yaml/domain/expression_time_series_cable_loss.py", "src/libecalc/domain/infrastructure/energy_components/generator_set/generator_set_component.py"]}
{"id": "C54", "title": "Conditional flow rates", "statement": "A flow rate is converted to a stream-day rate (divided by the regularity if given per calendar day, zero where the regularity is zero), is zero in exactly the periods in which its condition is false, and a negative rate where the condition holds is refused.", "quantifier": "all rate series, conditions, regularities and rate types", "why_tests_cant": "All series lengths and values.", "anchors": ["src/libecalc/presentation/yaml/domain/expression_time_series_flow_rate.py"]}
{"id": "C55", "title": "A target with tolerance compares consistently with numbers", "statement": "Comparing a pressure or rate target (FloatConstraint) with a number gives exactly one of less, equal and greater: equal when the number is within the absolute tolerance of the target, less when the number is above that band and greater when it is below; <= and >= are the negations of > and <. (Transitivity of the equality is false: refuted with a witness.)", "quantifier": "all targets, non-negative tolerances and numbers", "why_tests_cant": "The relation must hold at and on both sides of every band edge.", "anchors": ["src/libecalc/process/process_solver/float_constraint.py:FloatConstraint"]}
{"id": "C56", "title": "The energy model keeps the registered hierarchy", "statement": "Building the energy model succeeds exactly when every registered parent is itself registered. For containers registered once each, get_parent gives the registered parent (and fails for a container without one), get_children the containers registered under it in registration order, get_all_children every container at any level below it exactly once, get_energy_containers all containers in registration order, and get_root the first one registered without a parent; a cyclic hierarchy has no root.", "quantifier": "all sequences of registrations", "why_tests_cant": "Hierarchies of any depth and shape, registered in any order.", "anchors": ["src/libecalc/presentation/yaml/domain/energy_container_energy_model_builder.py:EnergyContainerEnergyModelBuilder", "src/libecalc/common/graph.py:Graph"]}
{"id": "C57", "title": "Mass rate and standard rate of a stream are two views of one flow", "statement": "A stream created from a standard rate reports exactly that standard rate, with the requested pressure and temperature, and its mass rate is the rate converted with the standard density of the fluid; the conversions between mass and standard rate undo each other; changing the rate of a stream keeps its fluid; a negative rate is refused and nothing else is.", "quantifier": "all fluid models, pressures, temperatures, rates and backends that report one positive standard density per fluid model", "why_tests_cant": "All rates and all fluids.", "anchors": ["src/libecalc/process/fluid_stream/fluid_stream.py:FluidStream", "src/ecalc_neqsim_wrapper/fluid_service.py:NeqSimFluidService.create_stream_from_standard_rate"]}
{"id": "C58", "title": "Cached flashes answer what a fresh calculation would", "statement": "For every engine, every set of threads, every history of requests to the fluid service and every non-negative pair of cache sizes, the answer to a flash (or liquid removal, or density at standard conditions) is the fresh calculation, without caches, of that request or of another flash of the same run that agrees with it to the cache precision (kind, equation of state, eight decimals of each mole fraction, six decimals of pressure and of temperature or enthalpy). If no two different requests of the run agree to that precision, every answer equals the fresh one. Otherwise it need not (refuted with a witness), but with an engine that ends at the conditions asked for a TP answer is within 1e-6 bar and 1e-6 K of them, and every PH answer has positive pressure, temperature, density, z, kappa and standard density and an enthalpy within max(10, 1e-4*|target|) + 2e-6 J/kg of the target.", "quantifier": "all engines, requests, histories, thread interleavings and cache sizes", "why_tests_cant": "What a cache returns depends on everything asked before, in any interleaving.", "anchors": ["src/ecalc_neqsim_wrapper/fluid_service.py:NeqSimFluidService", "src/libecalc/process/fluid_stream/fluid_property_validation.py:validate_ph_flash_result", "src/ecalc_neqsim_wrapper/cache_service.py:LRUCache"]}
{"id": "C59", "title": "Assembling a section keeps the given units and puts every compressor in one recirculation loop", "statement": "Assembling a process section keeps all given units in the given order. With anti-surge valves per compressor each compressor is in exactly one loop, alone, together with the units since the previous compressor or the previous mixer or splitter of streams, and mixers and splitters of streams are in no loop. With a common anti-surge valve there is one loop around everything. A choke is added in front exactly for upstream choking and at the end exactly for downstream choking. Unit ids and handler ids are all different.", "quantifier": "all lists of units, anti-surge types and pressure control types", "why_tests_cant": "Any sequence of units; tests cover a few fixed trains.", "anchors": ["src/libecalc/process/process_solver/section_assembly.py:assemble_process_section", "src/libecalc/process/process_solver/section_assembly.py:recirculation_loop"]}
{"id": "C60", "title": "A pipeline connects exactly its neighbouring units", "statement": "The connections of a process pipeline are exactly the pairs of consecutive units in the concatenation of its sections, also across sections and past empty ones, in order and each once.", "quantifier": "all pipelines of any number of sections", "why_tests_cant": "Section lists are unbounded and may be empty.", "anchors": ["src/libecalc/process/process_pipeline/process_pipeline.py:ProcessPipeline._create_process_unit_connections"]}
{"id": "C61", "title": "A compressor delivers only inside its limits and with the energy of its chart", "statement": "If a compressor returns an outlet stream then the inlet was gas, a speed was set and the actual rate was between the smallest and largest rate at that speed; the outlet has the fluid and mass rate of the inlet, a positive pressure, temperature and density, and an enthalpy that is the inlet's plus head over efficiency, within 10 J/kg or a ten-thousandth. A rate below the smallest is reported as surge and one above the largest as stonewall, and these are reported for no other reason; liquid at the inlet is reported whatever the rate.", "quantifier": "all charts, streams, speeds and fluid services", "why_tests_cant": "Charts and thermodynamics are arbitrary functions.", "anchors": ["src/libecalc/process/process_units/compressor.py:Compressor.propagate_stream", "src/libecalc/domain/process/compressor/core/train/utils/common.py:calculate_outlet_pressure_and_stream"]}
{"id": "C62", "title": "Damped pressure updates stay in range and approach the raw value", "statement": "Whatever sequence of raw pressures is met, the damping factor stays between 0.1 and 1, the updated pressure stays within any range holding the start and the raw pressures, and each update closes at least a tenth of the gap to the raw pressure without passing it; as long as the updates do not alternate nothing is damped.", "quantifier": "all sequences of raw pressures, of any length", "why_tests_cant": "The state of the damping depends on the whole history.", "anchors": ["src/libecalc/common/numeric_methods.py:adaptive_pressure_update"]}
{"id": "C63", "title": "Recirculating within the reported range keeps a compressor within its limits", "statement": "The recirculation range a compressor reports is not negative; adding at least its lower end to the inlet stream brings the actual rate above the minimum at the current speed, and adding at most its upper end, when that is positive, keeps it below the maximum. The lower end is positive whenever the inlet rate is below the minimum.", "quantifier": "all charts, speeds, streams and consistent fluid services", "why_tests_cant": "All operating points and unit conversions.", "anchors": ["src/libecalc/process/process_units/compressor.py:Compressor.get_recirculation_range"]}
{"id": "C64", "title": "A shaft drives exactly its compressors within their common speeds", "statement": "The speed range of a shaft holds exactly the speeds all its compressors accept, and asking for it without compressors is an error. Configuring a speed sets it on exactly the registered compressors and changes nothing else. A single-speed shaft refuses a different second speed and then changes nothing. Resetting a shaft leaves the speeds of the compressors. A compressor can be registered only once.", "quantifier": "all sets of compressors, charts and previous states", "why_tests_cant": "Any number of compressors and any history of configurations.", "anchors": ["src/libecalc/process/shaft.py:Shaft"]}
{"id": "C65", "title": "Chokes, droppers, coolers, splitters and scrubbers change only what they should", "statement": "A choke or pressure dropper lowers the pressure by exactly its pressure drop and keeps the flow and temperature, and reports too low an inlet pressure exactly when the drop exceeds it; a choke cannot be configured with a negative drop. A temperature setter sets the temperature and keeps pressure and flow. What a splitter passes on and what it splits off add up to the inlet, and it reports the offtake exactly when it exceeds the inlet. A liquid remover returns gas unchanged and otherwise keeps the mass of the vapour.", "quantifier": "all streams, settings and consistent fluid services", "why_tests_cant": "All magnitudes and fluids.", "anchors": ["src/libecalc/process/process_units/choke.py", "src/libecalc/process/process_units/pressure_dropper.py", "src/libecalc/process/process_units/temperature_setter.py", "src/libecalc/process/process_units/splitter.py", "src/libecalc/process/process_units/liquid_remover.py"]}
{"id": "C66", "title": "Every component counts once in an export, under the categories in force", "statement": "What an export finds for a period is the sum, over the components whose categories are wanted, of the volume (or level) of the component in that period in the asked unit: every component counts once, under the category of the component, of its fuel and of its producer that are in force when the period starts. One component without a category makes the export of that quantity fail, and an installation may have only one category over time. The export of fuel fails if the category of a fuel changes outside the time the fuel is used.", "quantifier": "all installations, categories over time, fuels, units, queries and periods", "why_tests_cant": "Categories, fuels and producers change over time independently of each other; a window that is cut wrongly counts a volume twice or not at all.", "anchors": ["src/libecalc/presentation/exporter/infrastructure.py: InstallationExportable", "src/libecalc/presentation/exporter/infrastructure.py: _combine_categories, _get_temporal_fuel_category", "src/libecalc/common/utils/rates.py: for_period, to_volumes, to_unit"]}
{"id": "C67", "title": "The chart of a compressor decides which points it can run at", "statement": "A compressor chart accepts a point exactly when the speed lies within its speeds (or below them, if the pressure may be throttled; the machine then runs at its lowest speed) and the rate does not exceed the largest rate at that speed, nor undercut the smallest one unless gas may be recirculated. An accepted point has the head and the efficiency of the chart at that speed and at the rate (raised to the smallest one): on a curve, or between the two neighbouring curves at the same fraction of their range of rates. A point that is not accepted has the values of the nearest end of the curves, and none if the speed is out of reach. The flag of the point tells which limits the speed and the rate violate. The rate of one curve at a head is the one on the curve, and beyond its heads that of the near end. The head of an accepted point lies within the heads of the chart, and the efficiency between 0 and 1. Two cases are excluded: no flow without recirculation, and a rate through the compressor that includes recirculation and lies beyond the chart; the program fails or accepts the point.", "quantifier": "all charts with curves of increasing speed and rate, all speeds and rates, with and without throttling and recirculation", "why_tests_cant": "The result depends on where the speed falls among the curves and the rate among their points; a test covers a handful of positions of one chart.", "anchors": ["src/libecalc/domain/process/value_objects/chart/compressor/compressor_chart.py: calculate_polytropic_head_and_efficiency_single_point", "src/libecalc/domain/process/value_objects/chart/chart.py: minimum_rate_as_function_of_speed, maximum_rate_as_function_of_speed, closest_curve_below_speed, closest_curve_above_speed", "src/libecalc/domain/process/value_objects/chart/chart_area_flag.py: ChartAreaFlag"]}
{"id": "C68", "title": "The capacity check moves a point into the chart exactly when that is possible", "statement": "On a chart whose fastest curve falls and whose curves start further up and to the right the faster they are, the capacity check (with throttling allowed) raises the rate to the minimum flow line between the left ends of the slowest and the fastest curve, and the head to the slowest curve or the stone wall to the right of it, and says whether it did. The result exceeds the capacity exactly when the moved point lies above the fastest curve or to the right of its end. Points inside these limits are accepted unchanged, and a point that was only recirculated is accepted unchanged when it is checked again. If the slowest curve starts to the right of the fastest one and above it, a point above the chart can be accepted.", "quantifier": "all such charts, all rates and heads", "why_tests_cant": "The four limits are piecewise linear functions of different variables, one of them the inverse of another; agreement between them at the corners and along the edges is a statement about every point.", "anchors": ["src/libecalc/domain/process/value_objects/chart/compressor/compressor_chart.py: evaluate_capacity_and_extrapolate_below_minimum", "src/libecalc/domain/process/value_objects/chart/chart.py: minimum_rate_as_function_of_head, maximum_rate_as_function_of_head, minimum_head_as_function_of_rate, maximum_head_as_function_of_rate"]}
{"id": "C69", "title": "A control margin cuts the curves off and changes nothing else", "statement": "A control margin between 0 and 1 moves the smallest rate of every curve that fraction of the range of rates to the right. To the right of it the head and the efficiency are the same as before at every rate, the largest rate and the speed stay, and the curve remains a curve with rates in order and efficiencies between 0 and 1. Without a margin, or with margin 0, the curve stays as it is. A chart gets all its curves adjusted, in order of speed. A margin above 1 is accepted as well; it leaves a single point to the right of the curve with the greatest head.", "quantifier": "all curves with increasing rates, all charts, all margins", "why_tests_cant": "The new point may fall on or between any of the points of a curve, and the claim is about every rate on the curve.", "anchors": ["src/libecalc/domain/process/value_objects/chart/base.py: ChartCurve.adjust_for_control_margin", "src/libecalc/presentation/yaml/mappers/charts/user_defined_chart_data.py: UserDefinedChartData", "src/libecalc/presentation/yaml/yaml_types/models/yaml_compressor_stages.py: control_margin"]}
{"id": "C70", "title": "A generic compressor chart always exists and holds the points it was made from", "statement": "A generic chart for a design rate, head and efficiency is the unified chart scaled by them. Made from lists of rates and heads, with a largest rate and head above zero, the search always ends, after at most 51 increases of the rate; the chart covers the largest rate and the greatest head, and when pressure can be throttled down no rate and head of the input exceeds its capacity. Without throttling an input point can exceed it, although the documentation says all points lie inside.", "quantifier": "all design points, all lists of rates and heads of equal length, all efficiencies between 0 and 1", "why_tests_cant": "The search loops until a condition holds; that it ends, and what the chart then contains, must hold for every list of points.", "anchors": ["src/libecalc/domain/process/value_objects/chart/compressor/chart_creator.py: CompressorChartCreator.from_rate_and_head_values, from_rate_and_head_design_point", "src/libecalc/domain/process/value_objects/chart/compressor/generic_chart_data.py: UNIFIED_GENERIC_CHART_CURVE_RATES", "src/libecalc/common/numeric_methods.py: maximize_x_given_boolean_condition_function"]}
{"id": "C71", "title": "Capacity checks do not depend on the units of rate and head", "statement": "If all rates of a chart and of the question are multiplied by one positive number and all heads by another, the capacity check gives the same answer in the new units: the same flags, and the corrected rate and head multiplied by those numbers. The same holds for generic charts made from rates and heads: the chart for the rescaled input is the rescaled chart.", "quantifier": "all charts, all rates and heads, all positive factors, with and without throttling", "why_tests_cant": "The claim compares two runs of a search with tolerances and iteration limits for every input and every factor.", "anchors": ["src/libecalc/domain/process/value_objects/chart/compressor/compressor_chart.py: CompressorChart.evaluate_capacity_and_extrapolate_below_minimum", "src/libecalc/domain/process/value_objects/chart/compressor/chart_creator.py: CompressorChartCreator.from_rate_and_head_values"]}
{"id": "C72", "title": "Totals add up", "statement": "In the JSON result the fuel, electrical power, mechanical power, power, and the emissions by name of an installation are, in every period, the sums over its components, and those of the asset (also its hydrocarbon export) are the sums over all components and hence the sums of what is reported for its installations. Fuel and emissions are summed as calendar-day rates, power as stream-day rates. A name is reported exactly when some component emits it. Every cumulative is the running sum of calendar-day rate times days (times 24/1000 for power, in GWh), and the cumulatives of the asset are the sums of those of its installations; for power this holds when powers and regularities are numbers and not negative, and can fail when powers of opposite sign cancel.", "quantifier": "all lists of installations, components, generator sets with consumers, venting emitters, all periods, rates, regularities, missing powers and emission names", "why_tests_cant": "A test fixes a few components; the claim is about every number of installations and components, every mix of missing powers, and every regularity, where the sum recomputes regularity from rates at every step.", "anchors": ["src/libecalc/presentation/json_result/mapper.py:InstallationMapper.map_installation", "src/libecalc/presentation/json_result/mapper.py:get_asset_result", "src/libecalc/presentation/json_result/mapper.py:aggregate_emissions", "src/libecalc/presentation/json_result/mapper.py:aggregate_fuel_consumption", "src/libecalc/presentation/json_result/mapper.py:aggregate_power_consumption", "src/libecalc/domain/infrastructure/energy_components/installation/installation.py"]}
{"id": "C73", "title": "Validity of installations and the asset", "statement": "A consumer or generator set with a result is valid in a period when its own result says so, a venting emitter always; an installation or the asset is reported valid in a period exactly when every component below it, at any depth, is valid in that period.", "quantifier": "all hierarchies of containers below one asset, all validity series, all periods", "why_tests_cant": "The hierarchy has any shape and depth and the answer combines all of it; a test sees one tree.", "anchors": ["src/libecalc/presentation/yaml/model.py:YamlModel.get_validity", "src/libecalc/common/utils/rates.py:TimeSeriesBoolean.__mul__"]}
{"id": "C74", "title": "Emission intensity", "statement": "The emission intensity reported for the end of a period is the CO2 emitted so far in kg divided by the hydrocarbons exported so far, in kg/Sm3 and kg/boe (1 Sm3 = 6.29 boe), and not a number while nothing has been exported. The yearly intensity of a period is the CO2 of that period divided by its export, and not a number if nothing is exported in it. What has been emitted so far is the sum of yearly intensity times export of the period, provided that no period has emissions without export.", "quantifier": "all export rates, CO2 rates, regularities, periods and capitalisations of the name CO2", "why_tests_cant": "The claim relates running sums, differences and quotients over any number of periods, with zeros anywhere.", "anchors": ["src/ecalc_cli/emission_intensity.py:EmissionIntensityCalculator", "src/libecalc/domain/emission/emission_intensity.py:EmissionIntensity", "src/libecalc/presentation/json_result/result/emission.py:EmissionResult.get_cumulative_kg"]}
{"id": "C75", "title": "Components of the result", "statement": "The JSON result lists every installation, generator set, consumer and venting emitter of the asset exactly once and nothing else, and lists each installation before what it contains and each generator set before what it feeds.", "quantifier": "all hierarchies in which only the asset, installations and generator sets have anything below them", "why_tests_cant": "It must hold for every tree; a forgotten branch of the recursion or a component listed twice shows only for some shapes.", "anchors": ["src/libecalc/presentation/json_result/mapper.py:InstallationMapper.map_container", "src/libecalc/presentation/json_result/mapper.py:get_asset_result"]}
{"id": "C76", "title": "Recirculation around a compressor stage", "statement": "When a compressor stage of a train is evaluated, its compressor handles the actual rate that comes in plus the recirculation that was asked for (a mass rate, or a fraction of the room up to the largest rate of the chart at the shaft speed), but never less than the smallest rate of the chart at that speed; head, efficiency and position are those of the chart at the rates reported, the fluid in the loop is the fluid of the inlet, what leaves the stage is what entered it, and the outlet has the enthalpy of the inlet plus head over efficiency within the tolerance of the flash.", "quantifier": "all stages, charts, shaft speeds, streams and settings of the recirculation in which not both kinds are chosen", "why_tests_cant": "It must hold for every chart, speed and stream; tests use a few charts inside their capacity.", "anchors": ["src/libecalc/domain/process/compressor/core/train/stage.py:CompressorTrainStage.evaluate", "src/libecalc/domain/process/entities/process_units/rate_modifier/rate_modifier.py:RateModifier"]}
{"id": "C77", "title": "Power of a compressor train", "statement": "The power of a stage is the power for the mass rate that comes in plus the loss reported for its recirculation, and the power of a train is the sum over its stages of the mass rate through the compressor times head over efficiency.", "quantifier": "all trains, requests and histories for which an evaluation is answered", "why_tests_cant": "Power is assembled per stage along several control paths; a path that leaves out the recirculated mass or a stage shows only for some requests.", "anchors": ["src/libecalc/domain/process/compressor/core/results.py:CompressorTrainStageResultSingleTimeStep", "src/libecalc/domain/process/compressor/core/train/compressor_train_common_shaft.py:CompressorTrainCommonShaft.evaluate_given_constraints"]}
{"id": "C78", "title": "Splitting a stream", "statement": "A splitter returns one stream more than the rates it is given, all with the fluid of the incoming stream, and their mass rates add up to the incoming mass rate; if the requested standard rates do not exceed the incoming standard rate, each part has exactly the rate requested and the last part the remainder. (If more is requested than comes in, less is given without an error: refuted with a witness.)", "quantifier": "all splitters, streams and lists of rates", "why_tests_cant": "Conservation must hold for all rates; the scaling step hides an excessive request.", "anchors": ["src/libecalc/domain/process/entities/process_units/legacy_splitter/legacy_splitter.py:LegacySplitter"]}
{"id": "C79", "title": "One speed for all stages", "statement": "Whenever a train answers, it reports one shaft speed that lies within the speed range of the chart of every stage, and every stage reports the operating point of its own chart at that speed, also when an intermediate pressure is requested and the two parts of the train are solved separately.", "quantifier": "all trains, pressure controls, requests and histories for which an evaluation is answered", "why_tests_cant": "The speed is found by a search and the parts of a train with an intermediate pressure are solved at different speeds first; only the combination of all paths shows that they end with the same speed.", "anchors": ["src/libecalc/domain/process/compressor/core/train/compressor_train_common_shaft.py:CompressorTrainCommonShaft.evaluate_given_constraints", "src/libecalc/domain/process/compressor/core/train/compressor_train_common_shaft.py:CompressorTrainCommonShaft.find_and_calculate_for_compressor_train_with_two_pressure_requirements"]}
{"id": "C80", "title": "What enters and leaves a train", "statement": "Without common recirculation, a train that answers takes in its fluid at the suction pressure, the temperature of its first stage and the requested standard rate, and if nothing is split off, mixed in or removed, the same fluid at the same mass rate enters and leaves the train and every stage. (With common recirculation the reported inlet can have another rate: refuted with a witness.)", "quantifier": "all trains, requests and histories for which an evaluation is answered, with any thermodynamic service that returns the state asked for", "why_tests_cant": "Mass must be kept along every control path and every number of stages, including paths taken when the pressure cannot be reached.", "anchors": ["src/libecalc/domain/process/compressor/core/train/compressor_train_common_shaft.py:CompressorTrainCommonShaft.calculate_compressor_train", "src/libecalc/domain/process/compressor/core/train/base.py:CompressorTrainModel.train_inlet_stream"]}
{"id": "C81", "title": "The statement about the pressures is true", "statement": "The status a train reports about its pressures agrees with the pressures it reports: if it says they are met, the discharge pressure (and the intermediate pressure, if requested) is the requested one within 0.1 percent, and if it says that a pressure is too low or too high, it is. (A sensible request with an intermediate pressure is not always answered: refuted with a witness that raises an index error.)", "quantifier": "all trains, requests and histories for which an evaluation is answered", "why_tests_cant": "The status is set on many paths and copied between results; each combination of control and failure has to be consistent.", "anchors": ["src/libecalc/domain/process/compressor/core/train/base.py:CompressorTrainModel.check_target_pressures", "src/libecalc/domain/process/compressor/core/results.py:CompressorTrainResultSingleTimeStep"]}
{"id": "C82", "title": "Validity of a train result", "statement": "A train result reported as valid is within the capacity of every stage, has the requested discharge and intermediate pressures within 0.1 percent, and needs no more than the maximum power, unless the control is by individual pressure ratios, or a downstream choke with a maximum discharge pressure, for which the power is not compared after the control (refuted with a witness); otherwise a result is reported as invalid only when a stage is outside its capacity, a pressure is missed or the maximum power is exceeded, and the failure it reports as the reason is one that occurred.", "quantifier": "all trains, requests and histories for which an evaluation is answered", "why_tests_cant": "Validity is what a user bases decisions on; it must be right for every path, in particular those on which nothing is reachable.", "anchors": ["src/libecalc/domain/process/compressor/core/results.py:CompressorTrainResultSingleTimeStep.is_valid", "src/libecalc/domain/process/compressor/core/results.py:CompressorTrainResultSingleTimeStep.failure_status"]}
{"id": "C83", "title": "A train evaluation does not depend on earlier ones", "statement": "The answer of a train for a request does not depend on what was evaluated before, so that the answers for a series of periods are the answers for each period on its own; only the speed of a shaft that cannot change its speed is kept from before.", "quantifier": "all trains, requests, series of periods and states left behind by earlier evaluations", "why_tests_cant": "The shaft and the recirculation of the stages are mutable and shared between evaluations; independence is a statement about all histories.", "anchors": ["src/libecalc/domain/process/compressor/core/train/base.py:CompressorTrainModel.evaluate", "src/libecalc/domain/process/compressor/core/train/compressor_train_common_shaft.py:CompressorTrainCommonShaft.evaluate_given_constraints"]}
{"id": "C84", "title": "Maximum standard rate of a train", "statement": "The maximum standard rate of a train depends on earlier evaluations only through the recirculation they left set at the stages, and, without an upstream choke and without a maximum power, the maximum rates for a series of periods are those for each period on its own. (Independence of earlier evaluations altogether is refuted with a witness: an evaluation leaves recirculation behind that lowers the maximum rate.)", "quantifier": "all trains, pressures, series of periods and states left behind by earlier evaluations", "why_tests_cant": "Tests use fresh trains; the dependence on history appears only when the same train is used again.", "anchors": ["src/libecalc/domain/process/compressor/core/train/compressor_train_common_shaft.py:CompressorTrainCommonShaft._get_max_std_rate_single_timestep", "src/libecalc/domain/process/compressor/core/train/base.py:CompressorTrainModel.get_max_standard_rate"]}
{"id": "C85", "title": "A train that stands still", "statement": "A train without side streams stands still for a rate of zero, raises an error for a negative rate, and runs for a positive rate if there is an answer; a train that stands still needs no power, has as many stages as the train, is valid, and was asked for no positive rate at its inlet.", "quantifier": "all trains, requests and histories", "why_tests_cant": "It must hold for every train and request; the test for zero is spread over all ports.", "anchors": ["src/libecalc/domain/process/compressor/core/train/compressor_train_common_shaft.py:CompressorTrainCommonShaft.evaluate_given_constraints", "src/libecalc/domain/process/compressor/core/results.py:CompressorTrainResultSingleTimeStep.create_empty"]}
{"id": "C86", "title": "Recirculation under the pressure controls", "statement": "Without an intermediate pressure: with a choke or no control nothing recirculates beyond what surge protection needs; with individual recirculation every stage recirculates the same fraction, between 0 and 1, of the room up to its largest rate; and with common recirculation the same mass rate goes around every stage or only what surge protection needs.", "quantifier": "all trains, requests and histories for which an evaluation is answered, with any root finder that answers inside its interval", "why_tests_cant": "Recirculation is set and reset by searches; a search that leaves a probe behind is seen only for some requests.", "anchors": ["src/libecalc/domain/process/compressor/core/train/compressor_train_common_shaft.py:CompressorTrainCommonShaft._evaluate_train_with_individual_asv_rate", "src/libecalc/domain/process/compressor/core/train/compressor_train_common_shaft.py:CompressorTrainCommonShaft._evaluate_train_with_common_asv"]}
{"id": "C87", "title": "Root finding stays in its interval", "statement": "The secant method answers between the two ends it is given and never evaluates its function outside them, and the root finder built on it answers inside the interval, whenever the bracketing method it falls back to does.", "quantifier": "all functions, ends, tolerances and numbers of iterations", "why_tests_cant": "Functions that are steep, flat or not monotonic send secants far away; only a proof covers all functions.", "anchors": ["src/libecalc/common/numeric_methods.py:secant_method", "src/libecalc/common/numeric_methods.py:find_root"]}
{"id": "C88", "title": "Rates of a train cut in two", "statement": "When a train is cut at a stage, the first part gets the rates of its own ports in order, the second part gets the net rate of the first as its inlet followed by the rates of its own ports in order, and the net rate out of the second part is the net rate out of the whole train.", "quantifier": "all trains with any splitters and mixers, all rates and all stages at which to cut", "why_tests_cant": "The order and signs of ports must be right for every layout of splitters and mixers.", "anchors": ["src/libecalc/domain/process/compressor/core/train/compressor_train_common_shaft.py:CompressorTrainCommonShaft.split_rates_on_stage_number"]}
{"id": "C89", "title": "A sampled compressor over one variable answers from its table", "statement": "A sampled compressor whose table varies in one variable answers every running request that is within its constant columns as follows. Between the smallest and the largest value of the table the energy used is linearly interpolated between the two neighbouring rows. Below the smallest rate or discharge pressure, and above the largest suction pressure, it is that of the nearest row. Beyond the other end, and outside the constant columns, there is no answer. A period without flow uses no energy. An acceptable table over one variable is accepted exactly when the values of the variable are distinct; otherwise TypeError is raised. A table whose columns differ in length, hold negative values or contain no variable is refused. A table in which nothing varies is refused as not implemented although it is acceptable (finding). The rate that is looked up is 1e-15 smaller than the one requested.", "quantifier": "all tables, all request series and all periods", "why_tests_cant": "The answer depends on where a real number lies relative to an arbitrary unsorted table and on which columns happen to be constant; tests sample a few tables and requests.", "anchors": ["src/libecalc/domain/process/compressor/core/sampled/compressor_model_sampled.py:CompressorModelSampled", "src/libecalc/domain/process/compressor/core/sampled/compressor_model_sampled_1d.py:CompressorModelSampled1D"]}
{"id": "C90", "title": "A sampled compressor over two variables moves a request into its table and no further than needed", "statement": "A sampled compressor whose table varies in two variables answers a running request that is within its constant columns exactly when raising the rate, raising the discharge pressure or lowering the suction pressure can move the request into the region between the points of the table. The answer is the value of the surface at a point of that region which is reached in this way. A request inside the region is not moved, and each variable that is moved is moved no further than needed. This is proved for tables whose bounding box has its centre in the interior of the region. For other tables it fails: for a right triangle a request inside is answered with the value at a point on the long side (finding). A table of three points that do not lie on a line is not always accepted: IndexError is raised when no edge on the upper side falls in the right direction (finding).", "quantifier": "all tables with two varying variables, all convex hulls and surfaces the geometry library may return for them, all request series and all periods", "why_tests_cant": "The claim is about the position of every real request relative to every convex polygon; tests check a few requests around a few polygons.", "anchors": ["src/libecalc/domain/process/compressor/core/sampled/compressor_model_sampled_2d.py:CompressorModelSampled2DRatePd", "src/libecalc/domain/process/compressor/core/sampled/compressor_model_sampled_2d.py:CompressorModelSampled2DRatePs", "src/libecalc/domain/process/compressor/core/sampled/compressor_model_sampled_2d.py:CompressorModelSampled2DPsPd", "src/libecalc/domain/process/compressor/core/sampled/convex_hull_common.py:get_lower_upper_qhull"]}
{"id": "C91", "title": "A sampled compressor evaluates every period on its own", "statement": "The energy usage, power and validity a sampled compressor reports for a period are those it reports when that period is evaluated alone: no period influences another. All series have one value per period. The reported rate of a period is the requested one, reduced by 1e-15 when it is positive.", "quantifier": "all sampled compressors, all request series of any length and all periods", "why_tests_cant": "The code scatters results through index arrays computed from several masks; that every index lands in its own period must hold for all lengths and all patterns of masks.", "anchors": ["src/libecalc/domain/process/compressor/core/sampled/compressor_model_sampled.py:CompressorModelSampled.evaluate"]}
{"id": "C92", "title": "Power and validity of a sampled compressor", "statement": "For a table of electric power the power is the energy usage. For a table of fuel without power values there is no power. For a table of fuel with power values the power is interpolated in the table of fuel and power: zero below the smallest fuel, no answer above the largest. A period is valid exactly when there is an energy usage and, with power values, a power.", "quantifier": "all sampled compressors with distinct fuel values, all request series and all periods", "why_tests_cant": "Validity is decided for every combination of energy usage and power being numbers or not, over all tables.", "anchors": ["src/libecalc/domain/process/compressor/core/sampled/compressor_model_sampled.py:CompressorModelSampled.Turbine"]}
{"id": "C93", "title": "The largest rate of a sampled compressor is the largest it delivers", "statement": "The maximum standard rate of a sampled compressor is not a number without a rate column, the largest rate of the table when only the rate varies, and the value of the rate column when that is constant, once for every period. When only the rate varies, a running request within the constant columns is answered exactly when its rate does not exceed the maximum by more than 1e-15. When the rate varies together with a pressure the question cannot be answered: TypeError is raised (finding).", "quantifier": "all sampled compressors, all suction pressures and all requests", "why_tests_cant": "The claim links two methods over all tables and all rates.", "anchors": ["src/libecalc/domain/process/compressor/core/sampled/compressor_model_sampled.py:CompressorModelSampled.get_max_standard_rate"]}
{"id": "C94", "title": "Dividing a pipeline into sections keeps every unit and gives each constraint its own section", "statement": "When the units listed in a process pipeline and its constraints are accepted, the units of the sections, one after the other, are exactly the listed units in their order; the constraints of the sections are exactly the given constraints; a section whose constraint names a unit contains that unit and no other constrained unit, and nothing follows that unit in the section except, in the last section, units that do not compress; a constraint without a unit belongs to the last section, which ends with the last unit. They are accepted exactly when names are not used twice, there is at least one constraint, no two constraints name the same place, every named unit exists, the last unit is not constrained if there also is a constraint on the outlet, and otherwise no compressor follows the last constrained unit. Everything else is refused with a validation error, except that a constraint on the outlet with no unconstrained unit before it raises an index error.", "quantifier": "every list of named or unnamed units with different ids and every list of constraints", "why_tests_cant": "Any number of units and constraints in any order; tests have a few pipelines.", "anchors": ["src/libecalc/presentation/yaml/mappers/process/process_partitioner.py:ProcessPartitioner.partition", "src/libecalc/presentation/yaml/mappers/process_simulation_mapper.py:ProcessSimulationMapper"]}
{"id": "C95", "title": "Only sections that can be solved are accepted", "statement": "A division into sections is accepted if and only if every section has a compressor, its anti-surge setting is not 'none', the pressure control agrees with it (a common ASV control needs a common ASV; individual ASV controls need individual ASVs), and a section with a common ASV has no mixer or splitter; otherwise a validation error is raised.", "quantifier": "every list of units and constraints that can be divided into sections", "why_tests_cant": "All combinations of control, anti-surge and units for any number of sections.", "anchors": ["src/libecalc/presentation/yaml/mappers/process/mapped_section_validator.py:MappedSectionValidator.validate", "src/libecalc/presentation/yaml/mappers/process/build_sections.py:ProcessSectionBuilder"]}
{"id": "C96", "title": "The assembled pipeline keeps the listed units, protects every compressor and knows where its constraints apply", "statement": "Every accepted list of units and constraints becomes a pipeline: an inlet, the listed units in order with only recirculation mixers and splitters and chokes added, and an outlet; the listed units in each section are those of the division; ids of units and of handlers are unique; the connections are exactly the pairs of neighbours. Each section has the choke and the valves its constraint asks for: a choke first for upstream and last for downstream choking, one loop around all units for a common ASV, otherwise one loop per compressor. Every listed compressor is inside a recirculation loop controlled by one of the handlers, and handlers control only units of the pipeline. The constraint of a section is attached to the last unit but one of the section and to the connection leaving it; in the last section that is the unit before the outlet (in earlier sections it is one unit too early).", "quantifier": "every list of listable units with different ids and every list of constraints", "why_tests_cant": "Any number of sections, units and valves.", "anchors": ["src/libecalc/presentation/yaml/mappers/process_simulation_mapper.py:ProcessSimulationMapper", "src/libecalc/presentation/yaml/mappers/process/build_sections.py:ProcessSectionBuilder", "src/libecalc/process/process_pipeline/process_pipeline.py:ProcessPipeline", "src/libecalc/process/process_solver/section_assembly.py:assemble_process_section"]}
{"id": "C97", "title": "A direct emitter reports the emission rates it was given", "statement": "For every direct venting emitter, each emission name is reported once, in tons per stream day with the regularity alongside: in every period the given expression's value in that period, converted from kg/d or t/d, zero where the condition is zero, divided by the regularity if it was given per calendar day (zero where the regularity is zero). Converted back to calendar days it is what was given per calendar day wherever the regularity is not zero. When two emissions have the same name (names are lower-cased), only the last one is reported and the others are lost without an error.", "quantifier": "all sequences of periods, variables, regularities, lists of emissions with any expression, condition, unit and rate type", "why_tests_cant": "expressions, conditions, regularities and rate types combine freely; tests try a few combinations", "anchors": ["src/libecalc/domain/infrastructure/emitters/venting_emitter.py:DirectVentingEmitter", "src/libecalc/domain/infrastructure/emitters/venting_emitter.py:EmissionRate", "src/libecalc/domain/infrastructure/emitters/venting_emitter.py:VentingEmitter.get_emissions", "src/libecalc/presentation/yaml/domain/time_series_expression.py:TimeSeriesExpression"]}
{"id": "C98", "title": "An oil loading or storage emitter reports oil rate times factor", "statement": "For every oil type venting emitter, each emission name is reported once, in tons per stream day with the regularity alongside: in every period the oil rate (per stream day, zero where the condition is zero, divided by the regularity if given per calendar day) times the emission factor in that period, kg to tons. The storage rate reported is that oil rate, in Sm3 per stream day with the same regularity.", "quantifier": "all sequences of periods, variables, regularities, oil rate expressions and conditions, rate types and lists of emission factors", "why_tests_cant": "expressions, conditions and regularities combine freely; tests try a few combinations", "anchors": ["src/libecalc/domain/infrastructure/emitters/venting_emitter.py:OilVentingEmitter", "src/libecalc/domain/infrastructure/emitters/venting_emitter.py:OilVolumeRate", "src/libecalc/domain/infrastructure/emitters/venting_emitter.py:OilVentingEmitter.get_storage_rates"]}
{"id": "C99", "title": "A fuel consumer always has a fuel, and reports its fuel, power and emissions", "statement": "A fuel consumer whose fuels follow each other without a gap is accepted exactly when at every time it has an energy usage model there is a fuel; otherwise it is refused with a validation error (with a gap between the fuels it is accepted although a time has no fuel). The fuel rate it reports has the values and periods of its result and the regularity of those periods. Its power is reported when it is known in every period and not at all otherwise. Its emissions are, in every period, its fuel rate times the factor of the fuel in force. An electricity consumer reports the power of its result with the regularity of those periods.", "quantifier": "all temporal models of fuels and energy usage, all consumer results over all or part of the periods, all regularities", "why_tests_cant": "temporal models and result periods line up in unboundedly many ways", "anchors": ["src/libecalc/domain/infrastructure/energy_components/fuel_consumer/fuel_consumer.py:FuelConsumerComponent", "src/libecalc/domain/infrastructure/energy_components/electricity_consumer/electricity_consumer.py:ElectricityConsumer.get_power_consumption", "src/libecalc/common/utils/rates.py:TimeSeriesRate.from_timeseries_stream_day_rate"]}
{"id": "C100", "title": "Results of successive models become one series", "statement": "When a consumer has several energy usage models in turn, each of its reported series (energy usage, validity, power, operational settings used) covers all periods of the run: in the periods of a model it has that model's values, in the others the fill value (zero usage, valid; setting number zero, the settings of a model counting from one). If one of the models has no power then no power is reported for the whole run. No results, results in different units or results that do not follow each other in time are refused with an error.", "quantifier": "all lists of results with any periods, values and units, all period sequences of the run", "why_tests_cant": "the number of models, where they begin and end and which lack an attribute vary without bound; tests use one or two models", "anchors": ["src/libecalc/core/result/results.py:ConcatenatedProperty", "src/libecalc/core/result/results.py:ConsumerSystemResult"]}
{"id": "C101", "title": "A direct consumer reports the load of the model in force", "statement": "A consumer with direct energy usage models reports, in every period of the run, the load (or fuel rate) of the model in force there: zero where a condition is zero, divided by the regularity if given per calendar day (zero without regularity), and divided by one minus the power loss factor (no number when that factor is one); zero where no model is in force. All periods are valid. The power is the energy usage of an electrical consumer, a fuel consumer has none. If any model in force is of the other kind, or gives a negative fuel rate in a period where it is in force, the consumer is refused with a validation error. Without any model in force in the run there is no result.", "quantifier": "all runs of contiguous periods, variables, regularities, direct models given plainly or by date, conditions, losses, rate types", "why_tests_cant": "a model is evaluated on the part of the run it applies to and the parts are put together; any choice of dates, expressions and regularities must give the same value as evaluating on the whole run", "anchors": ["src/libecalc/presentation/yaml/mappers/consumer_function_mapper.py:ConsumerFunctionMapper._map_direct", "src/libecalc/presentation/yaml/mappers/consumer_function_mapper.py:ConsumerFunctionMapper.from_yaml_to_dto", "src/libecalc/domain/infrastructure/energy_components/legacy_consumer/consumer_function/direct_consumer_function.py:DirectConsumerFunction.evaluate", "src/libecalc/domain/infrastructure/energy_components/legacy_consumer/component.py:Consumer.evaluate"]}
{"id": "C102", "title": "Several conditions must all hold", "statement": "An energy usage model with a list of conditions is in use in exactly those periods in which none of the conditions evaluates to zero, whatever operators the conditions contain. A single condition that is the number 0 counts as not given: the model is then always in use.", "quantifier": "all non-empty lists of conditions that are numbers or well-formed expressions, all variables", "why_tests_cant": "the conditions are joined as text; whether operators of one condition can capture parts of another depends on every combination of operators", "anchors": ["src/libecalc/presentation/yaml/mappers/consumer_function_mapper.py:handle_condition_list", "src/libecalc/presentation/yaml/mappers/consumer_function_mapper.py:_map_condition"]}
{"id": "C103", "title": "A tabulated consumer reads its table by variable name", "statement": "A consumer with tabulated energy usage models reports, in every period of the run, the energy usage read in the table of the model in force there at the values of the table's variables, found by name irrespective of the order they are written in (the last one counts for a repeated name); a variable named rate, in any case, is given per calendar day; all variables are zero where the condition is zero. With one variable the value is interpolated linearly between the neighbouring rows, and outside the table there is no number and the period is not valid; a negative usage is not valid either. Losses are added as for direct models. A model of the other kind is refused with a validation error, variables that are not those of the table with an error.", "quantifier": "all runs of contiguous periods, variables, regularities, tables, tabulated models given plainly or by date; the interpolation in several variables is an arbitrary function of the table and the point", "why_tests_cant": "tables, variable orders, dates and conditions combine freely", "anchors": ["src/libecalc/presentation/yaml/mappers/consumer_function_mapper.py:ConsumerFunctionMapper._map_tabular", "src/libecalc/domain/infrastructure/energy_components/legacy_consumer/tabulated/tabular_consumer_function.py:TabularConsumerFunction.evaluate_variables", "src/libecalc/domain/infrastructure/energy_components/legacy_consumer/tabulated/tabular_energy_function.py:TabularEnergyFunction.interpolate"]}
{"id": "C104", "title": "Reading the text of an expression", "statement": "A text in which numbers, variable names and operators are spelled out, in any layout (blanks and # comments between them, nothing between tokens that cannot run into each other), is read as exactly those tokens, so that evaluating the text gives, in every period, the value of the expression it writes. A number standing alone may have a sign, any number of digits and an exponent. Nothing of the text is lost except blanks and comments, and a text is refused, with a validation error, only if from some point on nothing can be read. It does not hold for a number in scientific notation with two digits or more before the point inside a longer expression: it is split into a number and a reference.", "quantifier": "for all texts, all token sequences and layouts, all variables and numbers of periods", "why_tests_cant": "Layouts, names and numbers are unbounded, and one pattern shadowing another shows only for particular neighbouring characters.", "anchors": ["src/libecalc/expression/expression_evaluator.py:lexer", "src/libecalc/expression/expression_evaluator.py:lex", "src/libecalc/expression/expression.py:Expression.validate", "src/libecalc/expression/expression.py:_expression_as_number_if_number"]}
{"id": "C105", "title": "Writing an expression as text", "statement": "The text of an expression, read again, is the same expression, provided the text of each number in it is one the reader takes for a number; it does not hold for an expression containing a negative number, whose text is refused.", "quantifier": "for all expressions (sequences of numbers, names and operators) and all ways of printing numbers", "why_tests_cant": "Round trips must hold for every nesting of parentheses and every combination of neighbouring tokens.", "anchors": ["src/libecalc/expression/expression.py:Expression.__str__", "src/libecalc/expression/expression.py:Expression.validate"]}
{"id": "C106", "title": "Which pressures are accepted", "statement": "Suction, discharge and (if given) intermediate pressures are accepted exactly if, in every period in which they are to be checked, the suction pressure is positive and suction, intermediate and discharge pressure are in this order; otherwise the model is refused with a validation error. Periods that are not to be checked never matter.", "quantifier": "for all numbers of periods, all masks and all pressures", "why_tests_cant": "The offending period may be anywhere and the mask is arbitrary; a test fixes a few combinations.", "anchors": ["src/libecalc/presentation/yaml/mappers/consumer_function_mapper.py:validate_pressures"]}
{"id": "C107", "title": "Consumers with pumps", "statement": "A consumer with pump models reports, in each period of the run, the power of the pump in force there at the rate (per producing day), pressures and density of its expressions, with the power loss added, and whether that point lies in the pump chart; zero, and valid, where no model is in force. A stopped pump, or one whose conditions do not hold, uses no power. A negative rate, or, where something flows, a pressure that is not positive or a discharge pressure below the suction pressure, is refused with a validation error, and so is a pump as a consumer of fuel.", "quantifier": "for all runs (periods, variables, regularities), all pump models changing over time, all charts with positive efficiencies, all expressions, conditions and loss factors", "why_tests_cant": "The result combines the expression evaluation, the restriction of the run to the periods of each model, the chart and the concatenation for every combination of periods and models.", "anchors": ["src/libecalc/presentation/yaml/mappers/consumer_function_mapper.py:ConsumerFunctionMapper._map_pump", "src/libecalc/domain/process/pump/pump.py:PumpModel.evaluate", "src/libecalc/presentation/yaml/model.py:YamlModel.evaluate_energy_usage"]}
{"id": "C108", "title": "Consumers with compressors", "statement": "A consumer with compressor models (one stream, sampled or not, or several streams) evaluates, in each period, the machine in force there at the rates, pressures and intermediate pressure of its expressions, and reports its energy usage, its power (if every model in force has one) and its validity, with the loss added; zero, and valid, where no model is in force. Negative rates, and unordered or non-positive pressures where the streams sum to something, are refused with a validation error, and so is a machine of the other kind. A compressor driven by a turbine uses the fuel the turbine needs for the adjusted power, and is valid only if the compressor is and the adjusted power does not exceed the largest load of the turbine. A compressor that is not sampled is never evaluated without both pressures; the user is, however, given an internal error rather than a validation message (refuted).", "quantifier": "for all runs, all compressor models changing over time, all machines (any function from operating points to results), all turbines", "why_tests_cant": "Rates, pressures, conditions and models in force vary independently over any number of periods.", "anchors": ["src/libecalc/presentation/yaml/mappers/consumer_function_mapper.py:ConsumerFunctionMapper._map_compressor", "src/libecalc/presentation/yaml/mappers/consumer_function_mapper.py:ConsumerFunctionMapper._map_multiple_streams_compressor", "src/libecalc/domain/process/compressor/core/base.py:CompressorWithTurbineModel.evaluate", "src/libecalc/domain/process/core/results/compressor.py:CompressorTrainResult"]}
{"id": "C109", "title": "Pump and compressor systems", "statement": "A consumer with pump or compressor systems reports, in each period, the energy usage, power and validity of the system in force there, with the loss added; zero, and valid, where none is in force. Each operational setting asks every consumer for its own rate, or for a fraction of the total rate, per producing day, and for nothing where the system is not in use; pressures and densities are common or given per consumer. With cross-over, a consumer passes on what exceeds its largest rate to the consumer it points to, unless the pressure there is lower. The setting used is the first in which every consumer has capacity for what it gets, and the last if there is none; only then is the period invalid. Negative rates, pressures that are not positive or not in order, and consumers of the other kind, are refused with a validation error. A description is accepted exactly if names are distinct, every list of a setting has one entry per consumer, and suction and discharge pressures are each given in exactly one way. It is, however, accepted without any rates, or with fractions but no total, and then fails with an internal error; and a pump system that is not in use is still refused for its pressures, a compressor system is not (refuted).", "quantifier": "for all runs, all systems changing over time, any number of consumers and settings, all consumers that are evaluated period by period", "why_tests_cant": "Which setting is used depends in every period on all consumers, all rates, pressures and cross-overs, conditions and regularity.", "anchors": ["src/libecalc/presentation/yaml/mappers/consumer_function_mapper.py:ConsumerFunctionMapper._map_compressor_system", "src/libecalc/presentation/yaml/mappers/consumer_function_mapper.py:ConsumerFunctionMapper._map_pump_system", "src/libecalc/domain/infrastructure/energy_components/legacy_consumer/system/consumer_function.py:ConsumerSystemConsumerFunction", "src/libecalc/presentation/yaml/yaml_types/components/legacy/energy_usage_model/yaml_energy_usage_model_consumer_system.py:YamlEnergyUsageModelCompressorSystem"]}
{"id": "C110", "title": "Consumers of a system", "statement": "A pump or compressor in a system gives, period by period, the same energy usage, power and validity as on its own at the same rate, pressures and density. A pump takes every rate; stopped it uses nothing; running it uses the shaft power of a rate and head that reach at least what is asked for, and it is valid exactly if that point is in its chart. Its largest rate is the rate of its fastest curve at the head asked for, read between the points of the curve, the largest rate of the curve below all its heads and the smallest above. A system of such pumps can be evaluated wherever the densities are positive.", "quantifier": "for all machines, all pump charts with a falling fastest curve, all series of rates, pressures and densities", "why_tests_cant": "Charts, rates, pressures and densities are arbitrary and vary over any number of periods.", "anchors": ["src/libecalc/domain/infrastructure/energy_components/legacy_consumer/system/types.py:ConsumerSystemComponent", "src/libecalc/domain/process/pump/pump.py:PumpModel.get_max_standard_rate", "src/libecalc/domain/process/pump/pump.py:PumpModel.evaluate_rate_ps_pd_density"]}
{"id": "C111", "title": "Largest rate of a compressor with a turbine", "statement": "The largest rate of a compressor driven by a turbine is between zero and that of the compressor; it is that of the compressor if the turbine can deliver the power needed for it, or if there is no power to compare; otherwise the power needed at the rate found does not exceed what the turbine can deliver, provided the root found is good to a thousandth of a MW. If neither the compressor nor the turbine adjusts the energy usage, the turbine is then not reported as overloaded. With an adjustment it can be overloaded at the reported largest rate, and asking for the largest rate of a sampled compressor with a turbine always fails with an internal error (refuted).", "quantifier": "for all compressors, turbines, pressures and root finders that stay in their interval", "why_tests_cant": "The power of a compressor as a function of the rate is arbitrary.", "anchors": ["src/libecalc/domain/process/compressor/core/base.py:CompressorWithTurbineModel.get_max_standard_rate", "src/libecalc/common/numeric_methods.py:find_root", "src/libecalc/domain/infrastructure/energy_components/turbine/turbine.py:Turbine.max_power"]}
{"id": "C112", "title": "A whole model: components and results", "statement": "When the text of a model is accepted, its energy model has the asset as its only root, and below it the installations in the order written; below each installation its generator sets, then its fuel consumers that have an energy usage model in the run, then its venting emitters; below each generator set its consumers that have a model in the run; and nothing else. Each consumer is reported with the result it has when evaluated by itself with the regularity of its installation; each generator set with the sum of the powers of the consumers below it, and in each period with the fuel, the capacity margin and the validity that the table in force gives for that power; each user of fuel with its own fuel if one is written and that of the installation otherwise. When the evaluation fails, a consumer that runs fails by itself with the same error, or none of the consumers of some generator set has a power.", "quantifier": "for all assets with any number of installations, generator sets, consumers and emitters, all temporal models of consumers, tables and fuels, all runs", "why_tests_cant": "The shape of the model, the dates of its parts relative to the run and the order of evaluation are unbounded; a test fixes one model text.", "anchors": ["src/libecalc/presentation/yaml/mappers/component_mapper.py:EcalcModelMapper.from_yaml_to_domain", "src/libecalc/presentation/yaml/mappers/component_mapper.py:EcalcModelMapper.map_installation", "src/libecalc/presentation/yaml/mappers/component_mapper.py:EcalcModelMapper.map_generator_set", "src/libecalc/presentation/yaml/model.py:YamlModel.evaluate_energy_usage", "src/libecalc/presentation/yaml/model.py:Context.get_power_requirement"]}
{"id": "C113", "title": "A whole model: what is accepted", "statement": "A model is accepted exactly if for every installation the regularity and the export evaluate; every generator set has a table at some time of the run, all its tables in the run are known and well formed, and its fuel is written, known, and there at all times at which it has a table; and every fuel consumer that runs has a fuel that is written, known in the run, and there at all times at which it has an energy usage model. What a consumer outside the run says about fuel does not matter. A generator set whose tables all lie outside the run is refused with an internal error instead of a message (refuted).", "quantifier": "for all model texts and all runs", "why_tests_cant": "Each refusal depends on the dates of several temporal models relative to each other and to the run.", "anchors": ["src/libecalc/presentation/yaml/mappers/component_mapper.py:EcalcModelMapper._resolve_fuel", "src/libecalc/presentation/yaml/mappers/component_mapper.py:EcalcModelMapper.map_generator_set", "src/libecalc/presentation/yaml/mappers/component_mapper.py:EcalcModelMapper.map_consumer", "src/libecalc/domain/infrastructure/energy_components/generator_set/generator_set_component.py:GeneratorSetEnergyComponent"]}
{"id": "C114", "title": "A whole model: reported totals", "statement": "When a model has been accepted and evaluated, its totals can be computed and are these, in every period. Fuel per calendar day: the sum over the installations of regularity times the fuel rates of its generator sets and fuel consumers. Electrical power: the sum of the powers of the consumers below generator sets; mechanical power: that of what has no consumers below it; power: both; each of them missing if there is nothing to add up. Export: the sum of what the installations export. The emissions reported are exactly those listed by a fuel in force for some user of it or by a venting emitter, each once; the rate of an emission is the sum over the installations of regularity times what is burnt (fuel rate times the factor of the fuel in force, nothing where the fuel does not list it) plus what is vented (the rate that is meant, or the oil rate times the factor). The cumulatives are the running sums of rate times days of these rates, in GWh for power when the powers are not negative.", "quantifier": "for all assets, runs and histories of fuels, regularities and emitters as in C112 whose factors and rates can be evaluated, and in which fuels change between periods", "why_tests_cant": "The totals depend on every component, on the fuel in force for each of them in each period, and on names that coincide between fuels and emitters; no finite set of models covers their combinations.", "anchors": ["src/libecalc/presentation/json_result/mapper.py:get_asset_result", "src/libecalc/presentation/json_result/mapper.py:InstallationMapper.aggregate_emissions", "src/libecalc/domain/installation.py:Installation", "src/libecalc/domain/infrastructure/energy_components/fuel_consumer/fuel_consumer.py:FuelConsumerComponent.get_emissions", "src/libecalc/domain/infrastructure/emitters/venting_emitter.py:VentingEmitter.get_emissions"]}
{"id": "C115", "title": "A whole model: repeated calls", "statement": "On one model object validate_for_run, get_periods, get_energy_model, evaluate_energy_usage and get_container_result can be called in any order, any number of times. If the text is accepted, the answers do not depend on what was called before: validation succeeds, the periods and the energy model are those of the text, evaluating succeeds or fails with the error a fresh model gives, and the results after evaluating are those of a fresh model (KeyError before). If the resources, the configuration, the times or the variables are refused, every call is refused with the same error whatever was called before. If the components are refused, the first call is refused with that error and no later call ever gives a result or an incomplete energy model: afterwards validation succeeds, and the energy model is either always refused or always empty.", "quantifier": "for all texts, runs and finite histories of calls", "why_tests_cant": "The object keeps four pieces of state (validated, registered components, cached energy model, results) which each call may change, also when it fails; the histories are unbounded.", "anchors": ["src/libecalc/presentation/yaml/model.py:YamlModel.validate_for_run", "src/libecalc/presentation/yaml/model.py:YamlModel.get_energy_model", "src/libecalc/presentation/yaml/model.py:YamlModel.evaluate_energy_usage", "src/libecalc/presentation/yaml/mappers/component_mapper.py:EcalcModelMapper.from_yaml_to_domain"]}
{"id": "C116", "title": "A series of periods for a compressor", "statement": "A compressor train or a sampled compressor evaluated for a series of periods gives, in every period, what it gives when it is evaluated for that period alone. For a train this holds whatever the train has been used for before, if its speed can vary or is the same fixed speed, and evaluating the series fails with an error only if one of its periods alone fails with that error. For a sampled compressor the reported power and validity of a period are those of the period alone too.", "quantifier": "for all trains, sampled compressors, series of operating points of any length and earlier histories of the train", "why_tests_cant": "A train keeps its speed and recirculation between periods; that nothing of it leaks into later periods is a statement about all series and states.", "anchors": ["src/libecalc/domain/process/compressor/core/train/base.py:CompressorTrainModel.evaluate", "src/libecalc/domain/process/compressor/core/train/base.py:CompressorTrainModel.set_evaluation_input", "src/libecalc/domain/process/compressor/core/sampled/compressor_model_sampled.py:CompressorModelSampled.evaluate"]}
{"id": "C117", "title": "A whole model with all kinds of consumers", "statement": "In a model whose consumers have direct, tabulated, pump, compressor, multiple-streams and system energy usage models, with trains, sampled compressors and turbines, in any combination: every electricity consumer has a value in MW in every period and a power, every fuel consumer a value in Sm3 per day in every period, and a power that is reported is in MW; the evaluation of an accepted model fails only if a consumer of it fails by itself with the same error, or no consumer of a generator set runs; otherwise the reported fuel, power and emission totals are those of C114.", "quantifier": "for all model texts with any of these consumers, variables, periods, runs and numerical libraries", "why_tests_cant": "Each combination of kinds of consumers over unbounded hierarchies and series would need a test of its own.", "anchors": ["src/libecalc/presentation/yaml/mappers/consumer_function_mapper.py:ConsumerFunctionMapper.from_yaml_to_dto", "src/libecalc/presentation/yaml/model.py:YamlModel.evaluate_energy_usage", "src/libecalc/presentation/json_result/mapper.py:get_asset_result"]}
{"id": "C118", "title": "The pressures of a simplified train", "statement": "A simplified train that runs lifts the same mass of gas, the standard rate times the standard density per hour, through all its stages: every stage takes the gas in at its own temperature, from the pressure at which the stage before left it, and multiplies the pressure by the same ratio, the root of the whole ratio. If the root is exact the gas leaves at the wanted pressure and the target is reported as met. A rate of zero gives an idle train with no power that is valid; a negative rate, a suction pressure of zero and a train without stages are errors. In a series of periods every period has the result it has alone, and the series fails exactly if a period does.", "quantifier": "for all trains with any number of stages and any charts, gases, thermodynamic libraries, pressures, rates and series of periods", "why_tests_cant": "The number of stages and periods is unbounded, and the answers of the thermodynamic library are arbitrary.", "anchors": ["src/libecalc/domain/process/compressor/core/train/simplified_train/simplified_train.py:CompressorTrainSimplified.evaluate_given_constraints", "src/libecalc/domain/process/compressor/core/train/base.py:calculate_pressure_ratio_per_stage", "src/libecalc/domain/process/compressor/core/train/base.py:CompressorTrainModel.evaluate"]}
{"id": "C119", "title": "The work of a stage of a simplified train", "statement": "Each stage of a simplified train does the polytropic work of a head and an efficiency that belong together: the efficiency is that of the chart at the actual rate and the head guessed before, the head follows by Campbell's formula from the averages of z and kappa between inlet and outlet, and the guesses end with the first that differs by less than a thousandth from the one before or with the twentieth. The rate is raised to the least rate of the chart and the head to the least head of the chart; the power is the mass rate through the compressor times the change of enthalpy, and the gas leaves with that change added. A stage has a power and is within its capacity exactly if the raised rate and head lie inside the chart. The efficiency lies within those of the chart. The train has a power exactly if all stages are within their capacity, and it is their sum; the train is valid exactly if moreover the power is within the maximum, where one other than zero is given; no failure is reported for a valid train.", "quantifier": "for all trains with regular charts, gases, thermodynamic libraries, pressures and rates", "why_tests_cant": "It quantifies over all charts and all answers of the thermodynamic library in every iteration.", "anchors": ["src/libecalc/domain/process/compressor/core/train/stage.py:CompressorTrainStage.evaluate_given_target_pressure_ratio", "src/libecalc/domain/process/compressor/core/train/utils/enthalpy_calculations.py:calculate_enthalpy_change_head_iteration", "src/libecalc/domain/process/compressor/core/results.py:CompressorTrainResultSingleTimeStep.is_valid"]}
{"id": "C120", "title": "The maximum rate of a simplified train", "statement": "The maximum rate that a simplified train reports is the least of what its stages can take at their inlet pressures (C118) and temperatures; what a stage can take is the largest rate of the chart at a head that belongs to the pressure ratio, found by guesses that end with the first rate that differs by less than a thousandth from the one before, or with the twentieth; if the gas cannot be brought to the pressure with a head above the chart, the largest rate at that head. It lies between the smallest and the largest rate of the chart. The reported maximum is zero for pressures that are not positive and undefined for a train that would lower the pressure. The maximum power plays no part.", "quantifier": "for all trains with regular charts whose fastest curve lies above the right end of the slowest, gases, thermodynamic libraries and pressures", "why_tests_cant": "It quantifies over all charts, stages and answers of the thermodynamic library in every iteration.", "anchors": ["src/libecalc/domain/process/compressor/core/train/simplified_train/simplified_train.py:CompressorTrainSimplified.calculate_maximum_rate_for_stage", "src/libecalc/domain/process/compressor/core/train/base.py:CompressorTrainModel.get_max_standard_rate", "src/libecalc/domain/process/value_objects/chart/chart.py:Chart.maximum_rate_as_function_of_head_no_choking"]}
{"id": "C121", "title": "Sections with a shaft each", "statement": "A solver of sections that each have a shaft solves one section after the other, each for the stream that the solved sections before it deliver. Its answer is a success exactly when every section is solved and runs with its solution, and it then holds the settings of all sections in order. After a success, with the settings as they are left, the stream that leaves each section meets that section's target, provided that each section by itself does so (C39) and that no section sets what the units of an earlier one use; only shafts, loops and chokes of the sections have been set. An answer that is not a success comes from the first section that is not solved or that cannot run, and tells what is wrong with it. A number of targets other than the number of sections is an error. With equal pressure ratios the gas leaves every section but the last at the inlet pressure times a power of the ratio, within the tolerance, and the last one at the target.", "quantifier": "for all lists of sections of any length with any units, wiring, strategies and root finders, targets, streams, thermodynamic libraries and earlier settings", "why_tests_cant": "The number of sections, the units in them and the earlier settings are unbounded; a later section may disturb an earlier one.", "anchors": ["src/libecalc/process/process_solver/multi_shaft_solver.py:MultiShaftSolver.find_solution", "src/libecalc/process/process_solver/pipeline_section_solver.py:PipelineSectionSolver"]}
{"id": "C122", "title": "Sections on one shaft", "statement": "A solver of sections on one shaft accepts two or more sections that share a shaft, with an upstream choke only in the first section and a downstream choke only in the last. After a success all compressors run at one speed, the largest of those that the sections need by themselves, each for what the sections before it deliver at the speed they need; and with the settings as they are left the stream that leaves each section meets that section's target. An answer that is not a success comes from the first section that finds no speed of its own or from the second pass at the common speed; a section that stays below its target there makes a failure that tells the pressure reached, the target and the section. A number of targets other than the number of sections is an error.", "quantifier": "for all lists of sections of any length with any units, wiring, strategies and root finders, targets, streams, thermodynamic libraries and earlier settings", "why_tests_cant": "The number of sections, the units in them and the earlier settings are unbounded; the common speed changes what every section delivers.", "anchors": ["src/libecalc/process/process_solver/multi_pressure_solver.py:MultiPressureSolver.find_solution", "src/libecalc/process/process_solver/multi_pressure_solver.py:MultiPressureSolver._validate_pressure_control_placement"]}
{"id": "C123", "title": "The rate that a section cannot take", "statement": "The excess rate of a section is zero without gas or when the section reaches its target with all of it. Otherwise it lies between zero and the whole rate, and what remains is one end of a range of rates that begins with nothing or a rate at which the section reaches the target, and ends with all of it or a rate at which it does not; the range is shorter than a ten-thousandth of its upper end (or of one), or has been halved forty times. If the section does not converge at some rate everything may be excess. The answer does not depend on what was solved before, and nothing but the section's own settings is changed.", "quantifier": "for all sections, targets, streams, thermodynamic libraries, root finders and earlier settings", "why_tests_cant": "It quantifies over all sections and all rates the search may try; whether the target is reached need not be monotone in the rate.", "anchors": ["src/libecalc/process/process_solver/feasibility_solver.py:FeasibilitySolver.get_excess_rate", "src/libecalc/process/process_solver/feasibility_solver.py:FeasibilitySolver._largest_feasible_rate"]}
{"id": "C124", "title": "Names are used once", "statement": "A model is accepted exactly when the model itself, its installations, fuel consumers, generator sets, electricity consumers and venting emitters all have different names, in whichever places they are written; otherwise it is refused with the names that occur more than once, each listed once. The same holds for the time series, for the emissions of a fuel, for the consumers of one system, and for everything that can be referred to (facility inputs, models, fuels, streams, process units, fluids, pipelines, simulations, fluid models): it is accepted exactly when each name is defined in one place. The names of the consumers of different systems are not compared, although the message of the check says so.", "quantifier": "for all names, all numbers of installations, generator sets, consumers and emitters, and all contents of the sections that can be referred to", "why_tests_cant": "Any two of an unbounded number of places may clash; a test tries a few pairs.", "anchors": ["src/libecalc/common/string/string_utils.py:get_duplicates", "src/libecalc/presentation/yaml/yaml_types/components/yaml_asset.py:YamlAsset.validate_unique_component_names", "src/libecalc/presentation/yaml/yaml_types/components/yaml_asset.py:YamlAsset.validate_unique_time_series_names", "src/libecalc/presentation/yaml/yaml_types/components/yaml_asset.py:YamlAsset.validate_unique_references", "src/libecalc/presentation/yaml/yaml_types/fuel_type/yaml_fuel_type.py:YamlFuelType.ensure_unique_emission_names", "src/libecalc/presentation/yaml/yaml_types/components/legacy/energy_usage_model/yaml_energy_usage_model_consumer_system.py:YamlEnergyUsageModelCompressorSystem.assert_unique_names"]}
{"id": "C125", "title": "References are resolved", "statement": "A reference is accepted exactly when there is a model of that name whose type is allowed where the reference is written and, for a compressor with a turbine, when the compressor it names exists, is allowed and is not a turbine again; otherwise the message says rightly whether the model is missing or of the wrong type. In an accepted model in which streams and pipelines are named by their keys, everything that is defined is found under its name together with the place it was written, and nothing else is found. Every accepted reference of a generator set, a tabulated consumer, a train, a turbine or a compressor resolves to the one model of that name, and a compressor is built from exactly the models it names, at any depth, provided that its charts suit it; a system that passes its check needs no operational data for this. Not so: a stream with a name other than its key hides another definition and is not found under its key; a pump or a stage may refer to a table, and a train with speeds to a generic chart, and are accepted but refused when the model is built.", "quantifier": "for all inputs: any definitions in any sections, any references, any train, turbine and system, with or without operational data", "why_tests_cant": "The definitions and the references among them are unbounded, and the checks and the resolution are separate pieces of code that must agree on all of them.", "anchors": ["src/libecalc/presentation/yaml/yaml_reference_service.py:YamlReferenceService", "src/libecalc/presentation/yaml/yaml_types/models/model_reference_validation.py:check_model_reference", "src/libecalc/presentation/yaml/yaml_types/models/model_reference_validation.py:check_field_model_reference", "src/libecalc/presentation/yaml/yaml_types/models/yaml_compressor_trains.py:YamlSimplifiedVariableSpeedCompressorTrain.check_compressor_chart", "src/libecalc/presentation/yaml/yaml_types/components/legacy/energy_usage_model/yaml_energy_usage_model_consumer_system.py:YamlEnergyUsageModelCompressorSystem.forbid_generic_from_input_and_unknown_stages_in_compressor_system", "src/libecalc/presentation/yaml/mappers/consumer_function_mapper.py:CompressorModelMapper.create_compressor_model"]}
{"id": "C126", "title": "Stages of a train of several streams", "statement": "A compressor train of several streams is built with all its stages in order, each with its chart, with a port to split off each outgoing stream that the stage names and a port to mix in each ingoing stream that it names (one less for the first stage), when no stream is named by two stages. When all streams that are named exist, the stages that are built are exactly those that name no stream which an earlier stage names; the others are left out without a message, so a train may be built with fewer stages than were asked for.", "quantifier": "for all numbers of streams and stages and all ways of naming streams at stages", "why_tests_cant": "The numbers of stages and streams are unbounded, and whether a stage is built depends on all stages before it through a dictionary that is changed while it is read.", "anchors": ["src/libecalc/presentation/yaml/mappers/consumer_function_mapper.py:CompressorModelMapper._create_variable_speed_compressor_train_multiple_streams_and_pressures"]}
{"id": "C127", "title": "Pump process simulations", "statement": "The pump process simulations of a model with a START are accepted exactly when every one of them describes a usable pump (curves with positive efficiencies, a minimum flow that is not below every rate of the curves, no head margin) and, in every period of the run, a liquid (rate not negative, suction pressure and density positive) with a discharge pressure that is not negative and is positive where the liquid flows. The input of every period then carries the written rate per day, suction pressure, density and discharge pressure (the suction pressure where the discharge pressure is written as zero). Every accepted simulation can be evaluated in every period; where the rate is positive the outlet has the required pressure, and where it is not the pump takes no power.", "quantifier": "for all numbers of simulations and periods, all expressions and series, all pump curves and all periods of the run", "why_tests_cant": "The rates, pressures and densities are expressions over arbitrary time series; whether a simulation is accepted depends on all periods at once, and a test runs a few series.", "anchors": ["src/libecalc/presentation/yaml/mappers/pump_process_simulation_mapper.py:PumpProcessSimulationMapper", "src/libecalc/presentation/yaml/model.py:YamlModel.get_pump_process_simulations", "src/libecalc/presentation/yaml/yaml_types/components/yaml_asset.py:YamlAsset.start"]}
{"id": "C128", "title": "Events and process events", "statement": "The events of a model are accepted exactly when no two have the same name and every process event refers to one of them; otherwise there is a validation error. There is then one event for each that is written, in the same order, with its own name, start, type and description, and it has exactly the process events that refer to it, in the order they are written. Looking up an event by name finds that event, or nothing if there is none; looking up by the name of a process event finds an event that has one of that name - the one it refers to, when the names of process events differ.", "quantifier": "for all lists of events and of process events, with any names, dates and references", "why_tests_cant": "Whether a process event reaches its event depends on all names in the two lists and on their order; a test fixes a few.", "anchors": ["src/libecalc/presentation/yaml/mappers/ecalc_event_mapper.py:EcalcEventMapper.map_events", "src/libecalc/ecalc_model/ecalc_event.py:EcalcEventService"]}
{"id": "C129", "title": "Process simulations", "statement": "The process simulations of a model with a START are accepted exactly when, for each of them: every target is a known pipeline; its units, the streams and the fluids they use are known and no rate is negative in any period; the pipeline has constraints, these fit its units, and the sections they divide it into are acceptable; each of its changes refers to a known process event, a known compressor and a unit with a name; no constraints are given for anything that is not a target; the inlet streams are known; and overflows go from and to targets. What is made of each target is a pipeline with the listed units in order and the sections, valves and chokes of its constraints, a shaft that drives exactly its compressors, each change at the date of its event on the named unit with the new chart, and for each unit that has one the written setting; overflows and streams are those that are written.", "quantifier": "for all libraries of units, streams, fluids and pipelines, all lists of simulations, targets, constraints, changes, distributions, expressions and series, and all periods of the run", "why_tests_cant": "What is accepted and made depends on arbitrary combinations of references, names, constraints and series; each test fixes one small file.", "anchors": ["src/libecalc/presentation/yaml/mappers/process_simulation_mapper.py:ProcessSimulationMapper.map_process_simulation", "src/libecalc/presentation/yaml/model.py:YamlModel.get_process_simulations"]}
{"id": "C130", "title": "Streams of process simulations", "statement": "The rate of a stream in a period of the run is the value of what is written, or nothing where the condition (all of the conditions) is zero. A rate that is negative in some period is refused with a validation error, and no other that can be evaluated is. A rate per calendar day gives the same as one per stream day. The fluid of a stream in a period has the written equation of state and the values of the written amounts in that period, and there is one exactly when none of these is negative; asking for it in a period that is not in the run is an error.", "quantifier": "for all expressions, series, conditions, rate types, fluids and periods of the run", "why_tests_cant": "The rates and compositions are expressions over arbitrary time series, evaluated in every period of an arbitrary run.", "anchors": ["src/libecalc/presentation/yaml/mappers/process_simulation_mapper.py:ProcessSimulationMapper._map_rate", "src/libecalc/presentation/yaml/domain/expression_time_series_flow_rate.py:ExpressionTimeSeriesFlowRate", "src/libecalc/ecalc_model/time_series_fluid_model.py:TimeSeriesFluidModel.get_value"]}
{"id": "C131", "title": "Charts from files and from the model file", "statement": "A file with several speeds is accepted as a chart exactly when it has the headers SPEED, RATE, HEAD and EFFICIENCY written so, all its cells are numbers, every speed has at least two rows and every efficiency is from 0 to 1 in its unit. The chart then has one curve for each speed that occurs, in strictly increasing order of speed, and the points of a curve are exactly those of the rows with its speed, in order of rate, with the head in J/kg (1000 for a kJ/kg, 9.81 for a metre) and the efficiency as a fraction. A file with one speed is accepted exactly when the columns of the chart (in any case) are numbers, there are two rows or more, the efficiencies are from 0 to 1 and all speeds are equal, or none is given; it gives one curve, with that speed or 1. Curves in the model file are accepted exactly when each has lists of the same length, at least two, and such efficiencies; they are put in order of speed, and give, when their speeds differ, the chart of a file with the same rows. The order of the rows of a file does not matter.", "quantifier": "for all files with distinct headers and columns of one length, all units and all lists of curves", "why_tests_cant": "Grouping, ordering and converting concern every number and order of rows, every set of speeds and every choice of units; a test reads a few files that are mostly in order already.", "anchors": ["src/libecalc/presentation/yaml/mappers/charts/user_defined_chart_data.py:UserDefinedChartData.from_resource", "src/libecalc/presentation/yaml/mappers/charts/user_defined_chart_data.py:UserDefinedChartData.from_yaml_curves", "src/libecalc/presentation/yaml/mappers/utils.py:convert_head_to_joule_per_kg", "src/libecalc/domain/resource.py:Resource.get_float_column", "src/libecalc/presentation/yaml/yaml_entities.py:MemoryResource.get_column"]}
{"id": "C132", "title": "Number of stages of a simplified compressor train", "statement": "For a train of unknown stages with a maximum pressure ratio above 1 and positive pressures, the number of stages is the smallest with which the suction pressure can be raised to the discharge pressure in every period without any stage exceeding that ratio. The train is made exactly when the pressure is raised in some period, and is a ValueError otherwise. The stages are then made for pressures that lead, in each period, from the suction pressure to the discharge pressure, each stage starting where the one before ends, with equal ratios that are at most the maximum.", "quantifier": "for all maximum ratios above 1, all numbers of periods and all positive pressures in them", "why_tests_cant": "That the number is enough for all periods and that no smaller one is compares a logarithm with every whole number; a test checks one series of pressures.", "anchors": ["src/libecalc/presentation/yaml/mappers/simplified_train_mapping_utils.py:calculate_number_of_stages", "src/libecalc/presentation/yaml/mappers/consumer_function_mapper.py:CompressorModelMapper._create_simplified_model_with_prepared_stages", "src/libecalc/domain/process/compressor/core/train/base.py:calculate_pressure_ratio_per_stage"]}
{"id": "C133", "title": "Relative paths lead to the files", "statement": "When the files of a model are given paths relative to its main file, each file gets exactly one such path; the main file gets its own name; and the path of any other file leads, step by step ('..' up, a name down), from the directory of the main file to that file, provided the directories the two paths have in common are not written again later in either path. With the main file at the top, each path is the path of the file itself, and two files never share a relative path. Without the condition this fails: the common directory is removed wherever it is written, so with a/m.yml the file a/ba/x.csv gets bx.csv, and a/b/a/x.csv and a/b/x.csv get the same path.", "quantifier": "all lists of files with different paths, all directory trees of any depth, all names", "why_tests_cant": "Tests use a few small trees; whether the path leads to the file depends on every way two paths can share text.", "anchors": ["src/libecalc/infrastructure/file_io.py:find_longest_common_path", "src/libecalc/infrastructure/file_io.py:strip_common_path", "src/libecalc/infrastructure/file_io.py:make_relative_path", "src/libecalc/infrastructure/file_io.py:make_relative_paths"]}
{"id": "C134", "title": "Files put in one place get different names", "statement": "When files are gathered in one place every file gets one name: a file whose name no other file has keeps it, and files that share a name are named after their whole path with underscores for slashes, in at most 100 characters. The names given are all different when no part of a path has an underscore (paths of at most 100 characters), and files of the same name in different directories without underscores always get different names. With underscores two files can get the same name: a/b.csv, c/b.csv and a_b.csv.", "quantifier": "all lists of files with different paths, all paths, all random endings", "why_tests_cant": "A clash needs a particular combination of names; no finite set of examples rules all of them out.", "anchors": ["src/libecalc/infrastructure/file_io.py:find_duplicates", "src/libecalc/infrastructure/file_io.py:rename_duplicates"]}
{"id": "C135", "title": "Which given files are used", "statement": "Without an archive, a list of files is accepted exactly when every name with a dot has an extension; the files used are those with extension csv, yml or yaml, in their order and with their content, and all others are reported as invalid. An archive must be given alone; then the files used are exactly the entries that are no directory, nothing the operating system adds, and csv or yaml by extension in any case, and it is accepted exactly when it can be read and these have different paths. The main file is found exactly when one and only one yaml file has one of the four words in it. Not true: that the case of the extension does not matter (data.CSV is refused by itself, accepted in an archive), and that files without an extension are only reported (a dot in a directory name ends in an IndexError).", "quantifier": "all lists of files with any names and contents, all archives", "why_tests_cant": "Names, extensions and archives of any shape: tests cover a handful.", "anchors": ["src/libecalc/infrastructure/file_io.py:EcalcFiles.allowed_file", "src/libecalc/infrastructure/file_io.py:EcalcFiles.validate_filetypes", "src/libecalc/infrastructure/file_io.py:EcalcFiles.get_main_file", "src/libecalc/infrastructure/file_io.py:unpack_zip"]}
{"id": "C136", "title": "Flow diagrams show the whole model", "statement": "In the flow diagram of any energy model, and in each diagram inside it, every edge starts and ends at a node of the same diagram, its kind of flow is listed there, and the period is that of the model. For models with installations below the asset, generator sets, fuel consumers and venting emitters below installations and electricity consumers below generator sets, the diagram is made: the area shows the installations in order, each with fuel in and emissions out; an installation with consumers has one subdiagram with its consumers in order, each generator set followed by its electricity consumers, with names and types of the components; and its edges are exactly fuel to all that burn it, emissions from all consumers, and electricity from each generator set to its consumers. Every component but the asset is shown exactly once.", "quantifier": "all energy models (first part); all registrations of components with that layout, of any size and order (the rest)", "why_tests_cant": "Tests compare a few diagrams with snapshots; that nothing is missing or shown twice ranges over all hierarchies.", "anchors": ["src/libecalc/presentation/flow_diagram/energy_model_flow_diagram.py:EnergyModelFlowDiagram.get_energy_flow_diagram", "src/libecalc/presentation/flow_diagram/energy_model_flow_diagram.py:EnergyModelFlowDiagram._get_energy_component_fde", "src/libecalc/presentation/flow_diagram/energy_model_flow_diagram.py:EnergyModelFlowDiagram._get_node"]}
{"id": "C137", "title": "The csv table shows every series of the result once, under its name", "statement": "When all results are about the same, different dates and every series has a value for each date, the csv output has one row for each date and exactly the time series of the components as columns, component by component in the order of the attributes, with the series of nested results (emissions) at their place. Each column is named after the component, the nested results, the attribute and the unit, where the unit says for rates whether it is per stream day or calendar day (MW (sd), t/cd) and for cumulative volumes that it is per calendar day; and it has the values of the series in order. It is refused exactly when one component has two columns of one name. When the components have different names without dots, all columns have different names. With dots in the names this can fail: a component a with a nested b and a component a.b give two columns of one name. Results in models are not in the table.", "quantifier": "all results with any number of components, attributes and depth of nesting, all names, units and values", "why_tests_cant": "Tests compare the csv of a few models with snapshots; that no series is lost, shifted or overwritten ranges over all results.", "anchors": ["src/libecalc/presentation/json_result/result/tabular_time_series.py:TabularTimeSeries.to_dataframe", "src/libecalc/infrastructure/file_utils.py:get_result_output"]}
{"id": "C138", "title": "Resampling a result resamples everything shown", "statement": "Given a way to resample series that keeps their kind and unit, the resampled result has the same name, the resampled periods, and the same columns in the same order, each with the resampled series, at any depth of nesting. When the periods and series come to the same new dates, so does the whole result, and its csv table is accepted whenever that of the original is, with the same columns and the resampled values.", "quantifier": "all results of any shape; all ways to resample series and periods", "why_tests_cant": "Tests resample a few results; that no nested series keeps its old dates ranges over all shapes of results.", "anchors": ["src/libecalc/presentation/json_result/result/tabular_time_series.py:TabularTimeSeries.resample", "src/libecalc/presentation/json_result/result/results.py:EcalcModelResult.resample"]}
{"id": "C139", "title": "Dates in the YAML file split the period of the model", "statement": "The dates of a document are exactly the dates used as keys of mappings, at any depth. Between START (or the first date of the time series) and END, the periods of the model are contiguous and have as boundaries exactly START, END, the dates of influencing time series and these dates, so that no change of a temporal model falls inside a period.", "quantifier": "all documents of any depth; all time series dates, starts and ends", "why_tests_cant": "Tests use a few documents; that no date key is missed ranges over all nestings.", "anchors": ["src/libecalc/presentation/yaml/yaml_models/pyyaml_yaml_model.py:find_date_keys_in_yaml", "src/libecalc/presentation/yaml/yaml_models/pyyaml_yaml_model.py:PyYamlYamlModel.dates", "src/libecalc/presentation/yaml/model.py:YamlModel._get_periods"]}
{"id": "C140", "title": "The files a model refers to are found, each once", "statement": "For a document without duplicate keys, the facility resources are exactly the files named by FILE in facility inputs, in CURVES or CURVE of models, and anywhere below DEFINITIONS.PROCESS_UNITS and PROCESS_PIPELINES, each once. They are found exactly when facility inputs and models are mappings and FILE in facility inputs and curves is empty or text. The time series resources are exactly the files named by FILE in TIME_SERIES.", "quantifier": "all documents", "why_tests_cant": "Tests list the files of a few models; a reference missed in some nesting fails only for the user who wrote it.", "anchors": ["src/libecalc/presentation/yaml/yaml_models/pyyaml_yaml_model.py:PyYamlYamlModel.facility_resource_names", "src/libecalc/presentation/yaml/yaml_models/pyyaml_yaml_model.py:PyYamlYamlModel.timeseries_resource_names", "src/libecalc/presentation/yaml/yaml_models/pyyaml_yaml_model.py:_find_file_references"]}
{"id": "C141", "title": "Errors point at the innermost mapping of their path", "statement": "For any path of keys, the place reported is the lines of the innermost mapping on the longest beginning of the path that exists in the document, with text keys in upper case, indices of lists and dates matched to keys. For mappings of included files the lines are those in the included file, but the file named is the main file.", "quantifier": "all documents without duplicate keys and all paths, existing or not", "why_tests_cant": "Tests check the place of a few errors; paths that exist only in part, through lists and dates, range over all documents.", "anchors": ["src/libecalc/presentation/yaml/yaml_models/pyyaml_yaml_model.py:PyYamlYamlModel._get_closest_file_context", "src/libecalc/presentation/yaml/yaml_models/pyyaml_yaml_model.py:PyYamlYamlModel.get_file_context"]}
{"id": "C142", "title": "Includes are put in place and duplicate keys refused", "statement": "A document that is read is a mapping, is the main file with the contents of each included file (and of files included there) in the place of the include, and has no mapping with a key twice, in included files neither. Conversely every main file for which there is such a document is read as this document, given enough recursion depth; files that include themselves, missing files and duplicate keys are refused.", "quantifier": "all main files, all sets of files, includes of any depth", "why_tests_cant": "Tests include one or two files; which keys are checked at which depth of includes ranges over all documents.", "anchors": ["src/libecalc/presentation/yaml/yaml_models/pyyaml_yaml_model.py:PyYamlYamlModel.read_yaml", "src/libecalc/presentation/yaml/yaml_models/pyyaml_yaml_model.py:PyYamlYamlModel.YamlReader", "src/libecalc/presentation/yaml/yaml_models/pyyaml_yaml_model.py:PyYamlYamlModel.IncludeConstructor"]}
{"id": "C143", "title": "Reading one model does not change how the next is read", "statement": "In a process that reads any number of models one after the other, a read that includes files from a directory (as the command line does) returns what it would return alone, and so do all of them if each does. A file without includes is read in the same way whatever was read before, and as long as no read had a directory, includes are refused. But a read that may not include files, or has no directory, uses the directory of the latest read that had one, where it would be refused on its own.", "quantifier": "all sequences of reads, all files and directories", "why_tests_cant": "The constructor for includes is kept on a class shared by all reads; whether one read disturbs another ranges over all histories.", "anchors": ["src/libecalc/presentation/yaml/yaml_models/pyyaml_yaml_model.py:PyYamlYamlModel.YamlReader", "src/libecalc/presentation/yaml/yaml_models/pyyaml_yaml_model.py:PyYamlYamlModel.SafeLineLoader", "src/libecalc/presentation/yaml/yaml_models/pyyaml_yaml_model.py:PyYamlYamlModel.read_yaml"]}
{"id": "C144", "title": "Each document of a run is in a file of its own in the output folder", "statement": "For a model with an emission called CO2 (in any case), a prefix that can be the name of a file, and installations with different names without a slash, a run of the command line ends well and each document it was asked for (flow diagram, results and intensities as csv and json, run information, an LTP or STP table per installation) is afterwards in the output folder, in the file named after the prefix, the document and the installation; no two documents share a file and no other file is changed. This holds for the default folder and prefix too. But without an emission called CO2 every run fails and writes nothing but the flow diagram, with an empty prefix the results are written beside the output folder, and with an installation that has a slash in its name, which the model accepts, the LTP export fails.", "quantifier": "all disks, folders, prefixes, choices of documents, numbers of installations and texts", "why_tests_cant": "Whether two documents can ever get the same name depends on all prefixes and names of installations, with dots in any place.", "anchors": ["src/ecalc_cli/commands/run.py:run", "src/ecalc_cli/commands/run.py:validate_arguments", "src/ecalc_cli/io/output.py:write_json", "src/ecalc_cli/io/output.py:write_flow_diagram", "src/ecalc_cli/io/output.py:export_tsv", "src/libecalc/presentation/exporter/handlers/handler.py:MultiFileHandler", "src/ecalc_cli/emission_intensity.py:EmissionIntensityCalculator"]}
{"id": "C145", "title": "Runs with different prefixes or folders keep each other's files", "statement": "After two runs in the same output folder with different prefixes that have no dots, and of which neither is the other followed by _intensity, the documents of both are in their files. The same holds for two runs in different output folders with any prefixes. But prefixes that differ only after their last dot (case.1 and case.2) share the names of the csv file and the intensities, and with the prefixes case and case_intensity the second run writes its results over the intensities of the first.", "quantifier": "all disks, pairs of runs, folders, prefixes and installations", "why_tests_cant": "Ranges over all pairs of prefixes and over the state that the first run leaves.", "anchors": ["src/ecalc_cli/commands/run.py:run", "src/ecalc_cli/io/output.py:write_json", "src/ecalc_cli/io/output.py:export_tsv"]}
{"id": "C146", "title": "The chart in the results is the chart of the compressor", "statement": "If the curves of a compressor have no negative speeds, rates or heads and efficiencies above 0, the results show exactly these curves with exactly their points, in order of speed for a user-defined chart. With a control margin above 0 and at most 1, they show the margin and one point per curve: the one at that fraction of the curve's range of rates, with head and efficiency interpolated on the curve. Without a margin there is no such line. A generic chart is shown with its design point. A chart that is shown never has a negative number or an efficiency of 0: but a compressor accepts a curve with an efficiency of 0, and then its results cannot be made.", "quantifier": "all charts with any number of curves and points, all control margins", "why_tests_cant": "Ranges over all curves and margins; interpolation, sorting and the constraints of the fields meet in it.", "anchors": ["src/libecalc/presentation/json_result/serializable_chart.py:ChartDTO.from_domain", "src/libecalc/presentation/json_result/serializable_chart.py:ChartCurveDTO", "src/libecalc/presentation/json_result/serializable_chart.py:OperationalPointDTO", "src/libecalc/presentation/yaml/mappers/charts/user_defined_chart_data.py:UserDefinedChartData"]}
{"id": "C147", "title": "References to definitions are replaced by the definitions", "statement": "Resolving the definitions of a model puts, at every place whose type is T | DefinitionReference (a field, an item of a list, set or tuple of any length, a value of a mapping, at any depth) and whose value is a text, the definition with that name; every other value stays in its place, and a model without references is returned as it is. It fails with a KeyError exactly when a reference is to a name that is not defined. Two kinds of references remain: those in an optional list (the type of the items of list[...] | None is not found), and those within a definition that was put in.", "quantifier": "all models of any depth whose containers are annotated as containers, all definitions", "why_tests_cant": "Ranges over all trees of models, mappings and sequences and all annotations.", "anchors": ["src/libecalc/presentation/yaml/definition_resolver.py:resolve_definitions", "src/libecalc/presentation/yaml/definition_resolver.py:_resolve_value", "src/libecalc/presentation/yaml/definition_resolver.py:_get_item_type"]}
{"id": "C148", "title": "Versions are read, written and ordered consistently", "statement": "A text of at most 4300 characters is read as a version exactly when it is one to three numbers with dots between them, perhaps after a v and before a newline: the numbers are those written in decimal, and those left out are 0. Every other text, and no text, is read as 0.0.0 - so 10.0.0-rc1 counts as older than 2.0. A version that is written as a text is read back as the same version. The six comparisons agree with one total order in which the first number that differs decides. A number with more than 4300 digits is a ValueError, not 0.0.0.", "quantifier": "all texts, all versions of three numbers, all pairs and triples of versions", "why_tests_cant": "Ranges over all texts and all numbers of any length.", "anchors": ["src/libecalc/common/version.py:Version.from_string", "src/libecalc/common/version.py:Version.__str__", "src/libecalc/common/version.py:Version.__lt__"]}
{"id": "C149", "title": "All references in the expressions of a model are found", "statement": "The references extracted from a model are exactly those of its expressions: the texts and numbers in fields typed as expressions, of the model itself and of all models in it, at any depth of models, when a field holds a value, a list, or a dict of values or lists. No other text ever counts. Two kinds of expressions are missed: those of a model in a field that may hold an expression or a model, and those in tuples and sets.", "quantifier": "all models of any depth and width, all annotations, all functions from expressions to their references", "why_tests_cant": "Ranges over all trees of models and all annotations.", "anchors": ["src/libecalc/expression/extract_expressions.py:extract_expression_references", "src/libecalc/expression/extract_expressions.py:_collect_expression_values", "src/libecalc/expression/extract_expressions.py:_contains_expression_type"]}
{"id": "C150", "title": "Every broken file is reported, and nothing else is lost", "statement": "Of the files named in a model, the resources are exactly those that exist and can be read; each time a broken file is named there is one error with its name, in the order of the names, time series before facilities, and then all errors of the configuration. The validation of the configuration is told exactly the named files that exist, so a broken file is not also reported as missing. This holds exactly when no named file is something other than a text: such a file ends the validation with another exception, and no other error is told.", "quantifier": "all lists of names, all contents of the disk, all readers of files and validations of configurations", "why_tests_cant": "Ranges over all combinations of good, broken, missing and repeated files.", "anchors": ["src/ecalc_cli/infrastructure/file_resource_service.py:FileResourceService.get_time_series_resources", "src/ecalc_cli/infrastructure/file_resource_service.py:FileResourceService.get_facility_resources", "src/libecalc/presentation/yaml/model.py:YamlModel.validate_for_run", "src/libecalc/presentation/yaml/yaml_entities.py:MemoryResource.from_path"]}
{"id": "C151", "title": "Cable loss and maximum usage are accepted exactly with power from shore", "statement": "A generator set with a CABLE_LOSS or a MAX_USAGE_FROM_SHORE is accepted exactly when its category is power from shore, always or from some date; without both it is always accepted. A cable loss that is refused could not have changed the power production in any run. The converse fails: a cable loss is accepted when power from shore ends before the run starts, and then it never counts.", "quantifier": "all generator sets with any categories over time, all runs, losses and power requirements", "why_tests_cant": "Ranges over all categories over time and all runs; the validation and the evaluation are far apart in the code.", "anchors": ["src/libecalc/presentation/yaml/ltp_validation.py:validate_generator_set_power_from_shore", "src/libecalc/presentation/yaml/yaml_types/components/yaml_generator_set.py:YamlGeneratorSet.check_power_from_shore", "src/libecalc/presentation/yaml/mappers/component_mapper.py", "src/libecalc/presentation/yaml/domain/expression_time_series_cable_loss.py:ExpressionTimeSeriesCableLoss"]}
{"id": "C152", "title": "One NeqSim service and at most one Java process, with fresh caches", "statement": "Whatever sequence of configuring, starting, using, leaving and shutting down a process goes through: a cached object always belongs to the current service, whose Java process runs; while there is a service, use gives it, starting the same kind gives it again and starting the other kind is an error. If closing never fails, the Java processes that run are exactly that of the current Py4J service. The configuration set last is that of the next Py4J service for its whole life, and cannot be set while there is a service. Leaving the context ends service, process and caches, or changes nothing if shutdown_on_exit is off. Refuted: that nested contexts work (the inner one ends the outer one's service), that a Java process whose closing failed is dealt with later, and that a configuration set on the class returned by factory() counts.", "quantifier": "all sequences of operations of any length, with starts and closings failing at any point", "why_tests_cant": "Ranges over all histories of a process-wide mutable service with failures at any point.", "anchors": ["src/ecalc_neqsim_wrapper/java_service.py:NeqsimService", "src/ecalc_neqsim_wrapper/java_service.py:NeqsimPy4JService.initialize", "src/ecalc_neqsim_wrapper/java_service.py:NeqsimPy4JService.shutdown", "src/ecalc_neqsim_wrapper/java_service.py:NeqsimPy4JService.__exit__", "src/ecalc_neqsim_wrapper/java_service.py:NeqsimJPypeService"]}
{"id": "C153", "title": "Unknown references in expressions are reported, and only those", "statement": "In a model, an expression is accepted exactly when it can be read and each of its references is a time series of the model or $var. followed by the name of one of its variables; otherwise the error names exactly the references that are not available. A well-formed expression that is accepted evaluates with every set of values that covers the available references; one that is refused fails to evaluate with every set of values for those references. Refuted: that an accepted expression is well formed (\"1 {+}\" is accepted and can never be evaluated).", "quantifier": "all expressions (texts and numbers), all lists of time series and variables, all values", "why_tests_cant": "Ranges over all texts and all models; links the validation to the evaluation.", "anchors": ["src/libecalc/presentation/yaml/yaml_types/components/yaml_expression_type.py:validate_expression", "src/libecalc/presentation/yaml/model.py:YamlModel._get_token_references", "src/libecalc/expression/expression.py:Expression.validate", "src/libecalc/expression/expression.py:Expression.evaluate"]}
{"id": "C154", "title": "Dicts are subtracted key by key, and only if their keys agree", "statement": "Subtracting two dicts succeeds exactly when they have the same keys, in whatever order, and gives for each key the difference of its values and nothing for other keys. A key reported as missing is in the first dict and not in the second. Subtracting the other way round gives the opposite values.", "quantifier": "all pairs of dicts of any size with any keys and (exact) numbers", "why_tests_cant": "Ranges over all dicts; that equal sizes and no missing key imply the same keys is a counting argument.", "anchors": ["src/libecalc/common/math/math_utils.py:MathUtil.elementwise_subtraction_by_key"]}
{"id": "C155", "title": "The type of a consumer's energy usage model does not change over time", "statement": "A consumer is accepted by the check of its energy usage models exactly when its model has the same type at all its times; otherwise the error lists the types that occur, each once, and they are at least two. A single model is always accepted.", "quantifier": "all energy usage models, single or over any number of times", "why_tests_cant": "Ranges over all models over time of any length.", "anchors": ["src/libecalc/presentation/yaml/energy_model_validation.py:validate_energy_usage_models", "src/libecalc/presentation/yaml/yaml_types/components/legacy/yaml_electricity_consumer.py", "src/libecalc/presentation/yaml/yaml_types/components/legacy/yaml_fuel_consumer.py"]}
{"id": "C156", "title": "The place shown in an error identifies the place", "statement": "Two places in a model (sequences of names, positions and dates) that are shown as the same text in an error are the same place, provided that names are not empty, contain neither '.' nor '[' and do not read as a date. Refuted without the provisos: a name with a dot is shown as two names, and a name that reads as a date is shown as that date.", "quantifier": "all places of any depth, all names, positions and dates with years of four digits", "why_tests_cant": "Ranges over all pairs of places; unambiguity is a property of the whole format.", "anchors": ["src/libecalc/presentation/yaml/validation_errors.py:Location.as_dot_separated", "src/libecalc/presentation/yaml/validation_errors.py:Location._date_to_string", "src/libecalc/presentation/yaml/validation_errors.py:ModelValidationError.__str__"]}
{"id": "C157", "title": "An expression given at dates holds from its date to the next", "statement": "When expressions given at dates are converted to expressions in periods and the dates are in order, the expression found at any time is the one given at the last date that is not after it, no time is in two periods, and nothing is found before the first date. Refuted for dates that are not in order: they are not sorted, and another expression than the one given last is found.", "quantifier": "all dicts from dates to expressions of any size, all times before the latest date of Python", "why_tests_cant": "Ranges over all dates and all times.", "anchors": ["src/libecalc/dto/utils/validators.py:convert_expression"]}
