# Formal model of equinor/ecalc in Rocq (Coq 8.16.1)

## Layout

* `properties.jsonl` - the English properties.
* `rocq/theories/<Area>_Model.v` - model of the code, function by function; each definition cites file and lines in /repo.
* `rocq/theories/<Area>_Spec.v` - small specifications used in theorem statements (no proofs, independent of the model helpers).
* `rocq/theories/<Area>_Proofs.v` - lemmas.
* `rocq/theories/<Area>_Props.v` - the property theorems, each closed by `exact`, with non-vacuity examples and `Print Assumptions`.
* `MANIFEST.json` - property -> theorems.
* `seeded/LOG.jsonl` - mutation experiments on the model.

## Modelling conventions

* Python `datetime` is an integer number of seconds (`Z`).
* Python `float` is an exact rational (`Qc`, canonical rationals of the standard library); rounding and overflow are NOT modelled. NaN is modelled explicitly (`option Qc`) in those functions whose behaviour on NaN matters. Real numbers are not used: powers and roots are function arguments, with the equation a property needs (for instance `root^n = x`) as a stated hypothesis.
* Exceptions are values of an error type (`result`). A Python exception that the code does not raise itself but Python would (IndexError, ValueError of list.index, ZeroDivisionError) is an error value too.
* numpy/pandas/scipy/networkx calls are modelled by the documented behaviour of the call actually made; each is listed in the trusted base below.
* External physics (NeqSim flashes, charts inside solvers, scipy root finding) are function arguments (section variables, generalised at section close). No axioms.
* When the faithful model violates a property, the violation is proved as `..._refuted` with a concrete witness and the strongest true variant is proved beside it.

## Plan per property

* **C01** Creating periods from dates partitions the time line. Time_Model.create_periods; induction over the date list; spec = membership of instants.
* **C02** Period intersection is the intersection of the instants. Time_Model.intersects/intersection; linear arithmetic on Z.
* **C03** Selecting the periods inside a period selects exactly those. Time_Model.get_period_indices/get_periods over contiguous lists; induction, index lemmas.
* **C04** A temporal model has exactly one model in force at every instant. Time_Model.temporal_model constructor and get_model; induction over keys against an independent `latest key` spec.
* **C05** Restricting a temporal model to a target period does not change what is in force. Time_Model.define_time_model_for_period; induction over entries; refutation for unsorted date keys.
* **C06** Resampled periods follow the calendar and keep the range. Time_Model.resample_periods with pandas date_range modelled as `all days on the offset`; calendar functions on day numbers.
* **C07** Temporal expressions evaluate to the expression in force in every period. Variables_Model.evaluate_temporal; slices, splice; pointwise spec.
* **C08** The subset of variables for a period is the part inside that period. Variables_Model.get_subset_for_period; expected refutation for periods reaching outside the global period.
* **C09** Calendar-day and stream-day rates convert back and forth without loss. Rates_Model; list of rationals; pointwise field algebra.
* **C10** Resampling volumes conserves volume. Rates_Model cumulative/resample with pandas time interpolation modelled as piecewise linear interpolation; spec = integral of a step function.
* **C11** Resampling a rate conserves volume and keeps the two rate types consistent. As C10.
* **C12** Cumulative volumes are running sums and invert to volumes. Rates_Model; induction.
* **C13** Splitting a time series at a date and merging gives the series back. Rates_Model; list algebra.
* **C14** Adding rates adds them in both rate types. Rates_Model; pointwise algebra, refutation at zero stream-day sum.
* **C15** A resampled boolean is true only if the original was true throughout. Rates_Model.bool_resample.
* **C16** Resampling a plain series keeps the value in force. Rates_Model.ts_resample; expected refutation for off-grid changes, partial theorem on grid.
* **C17** Filling a series out to more periods changes nothing that was there. Rates_Model.fill_values_for_new_periods.
* **C18** Unit conversions are invertible and path independent. Units_Model: registry as table of affine maps.
* **C19** Expressions evaluate with the usual precedence and associativity. Expr_Model: shunting-yard and tree builder as in the code; refinement to an AST evaluator by induction over a precedence grammar.
* **C20** Vector evaluation is element-wise. Expr_Model: vector evaluation.
* **C21** A malformed expression is rejected. Expr_Model, Expr_Proofs2: for sequences without operands side by side, evaluation succeeds exactly for the sequences of the grammar `writes` (counts, then a parse by weakest operator); refuted when operands stand side by side (leftover operands are ignored).
* **C22** Variables may be declared in any order. Vars_Model: the resolution loop; invariant + measure; permutation lemma.
* **C23** A temporal variable takes in each period the expression of the latest date. Vars_Model.process; expected refutation for unsorted dates, theorem for sorted dates.
* **C24** Time series input is zero before its first date and follows the chosen interpolation. YamlTS_Model.fit_to_time_vector; case analysis, interpolation lemmas.
* **C25** The global time vector is sorted, unique, bounded and complete. YamlTS_Model.global_time_vector; sort/dedup lemmas.
* **C26** Emissions are fuel times factor, per emission and per period. Energy_Model.evaluate_emissions.
* **C27** The generator set supplies exactly the consumers' power. Energy_Model.genset.
* **C28** A consumer system uses the first operational setting that works. Energy_Model.optimize.
* **C29** Cross-over moves excess rate without losing any. Energy_Model.crossover; expected refutation for chains.
* **C30** Power loss makes the consumer's net energy equal to the request. Energy_Model.power_loss.
* **C31** A bisection result is a probe that was accepted, within the boundary. Search_Model.bisect; loop invariant.
* **C32** lowest_true / highest_true find the edge of a monotone predicate. Search_Model.first_true; bracket invariant, geometric shrink.
* **C33** maximize_x_given_boolean_condition_function returns a feasible x close to the maximum. Search_Model.maximize_x.
* **C34** The sum of distributed rates equals the incoming rate. Distribution_Model; sums; induction over overflow order.
* **C35** Each item gets its own fraction of the common stream. Distribution_Model; expected refutation (topological vs. declaration order).
* **C36** Priorities: the first valid distribution is chosen. Distribution_Model.find_first_valid.
* **C37** Recirculation conserves mass. Units (process) model: mixer/splitter with arbitrary mass-preserving inner units.
* **C38** Merging solver configurations: the later one wins, nothing is lost. Solver_Model.merge_configurations as association list.
* **C39** A successful solution meets the pressure constraint. Solver_Model in a state monad over the heap of unit settings; configurations `in force` in a heap, frames for every strategy, root finder as a decision tree of probes with accuracy as an explicit hypothesis.
* **C40** Solving does not depend on what was solved before. Solver_Model: state monad; determinism lemma for states equal up to handlers reset.
* **C41** Equal pressure ratio targets multiply up to the requested target. Solver_Model.equal_ratio; the n-th root is an arbitrary function with root^n = ratio as a stated hypothesis.
* **C42** Pump evaluation keeps mass and energy consistent. Pump_Model.
* **C43** Mixing streams conserves mass and enthalpy. Stream_Model.mix.
* **C44** The cache never returns a wrong value. Cache_Model: OrderedDict as list; histories by induction; refinement to a map with recency ghost state.
* **C45** Delta profile between a model and itself is zero, and swapping models changes sign. Simple_Model: delta profile.
* **C46** Export aggregates every matching attribute once and fills the rest with zero. Export_Model.
* **C47** Component graph traversal visits every component exactly once, parents first. Graph_Model: fuelled traversals with proved-sufficient fuel.
* **C48** Tabulated energy functions interpolate between the given points. Interp_Model: numpy/scipy piecewise linear interpolation.
* **C49** Regularity validation. Energy_Model.regularity; expected refutation for numeric 0.
* **C50** Formatting to a precision is correct rounding. Numbers_Model: rationals, decimal rounding.

* **C51-C57** were added while the model grew; see properties.jsonl for the statements and the `_Props.v` file of the area for the theorems.
* **C58** Cached flashes answer what a fresh calculation would. Flash_Model: calls as programs over two LRU caches, threads interleaving between cache calls; invariant: every entry is the fresh calculation of a request with that key.
* **C59** Section assembly. Process_Model `assemble_section` (ids from a counter); loop invariant over the assembled stretches.
* **C60** Pipeline connections. `connections`; equals the zip of the flattened ids with their tail.
* **C61** Compressor. `compressor_propagate` with the outlet iteration; chart, flash and Campbell's formula are arbitrary functions; invariant: every iterate is a validated PH flash at the target enthalpy.
* **C62** Damped pressure update. `adaptive_pressure_update`; invariants by induction over the raw pressures.
* **C63** Recirculation range. Algebra over the rate conversions of a consistent fluid service.
* **C64** Shafts. `speed_boundary`, `connect`, `handle`, `reset_handler` over an explicit heap of unit settings.
* **C65** Choke, pressure dropper, temperature setter, splitter, liquid remover. Direct case analysis.
* **C66** Attributes offered for export: sums over components by category in force. Attributes_Model: the windows of categories, fuels and producers; sums over windows by induction; composed with C46 for fuel rows.
* **C67** Points of a compressor chart. Compressor_Model: `single_point` branch by branch over the curves of Chart_Model; Compressor_Spec gives the chart as a relation (`on_chart`, `smallest_rate`, `largest_rate`, `runs_at`). Proof: the neighbouring curves of a speed, uniqueness of piecewise linear values, case analysis over the flags. Two excluded cases are refuted.
* **C68** Capacity of a compressor chart: `evaluate_capacity` with throttling. The limits are specified from the points of the curves; the inverse of a falling line (Compressor_Proofs5) links the largest rate at a head with the greatest head at a rate.
* **C69** Control margin: `adjust_for_control_margin`, `user_defined_curves` (Chart_Model). The values of a cut polyline agree with the original to the right of the cut.
* **C70** Generic charts: `from_rate_and_head_design_point` and `from_rate_and_head_values` with its three scenarios and both search loops (Generic_Model, on top of Compressor_Model and `maximize_x`). Invariant of the searches: the design point never shrinks, and a chart whose left end lies to the right of every rate is never exceeded upwards. `C70_input_refuted` shows that the docstring's "all points inside" fails when pressure is not throttled.
* **C71** Units: the capacity check and the generic charts commute with scaling of rates and heads. Proved by carrying the scaling through sorting, interpolation, the capacity check, `maximize_x` and the loops.
* **C72** Totals: the aggregation of fuel, power and emissions, the totals of installations and asset and their cumulatives. Proved by induction on the lists of components; for power with an invariant on the recomputed regularity (a number wherever the power is not zero).
* **C73** Validity: the recursion of `get_validity` over the hierarchy (C56). Proved by induction on the number of containers below.
* **C74** Emission intensity: the calculator of the command line, down to the quotients. Proved from the running sums of C72.
* **C75** Components: the recursion of `map_container` and the loop over installations. Proved by induction, with ancestors of a container forming a chain.
* **C76** Stage: recirculation, mixers, splitters, liquid removal, chart and compression of one stage, with the shaft speed and the recirculation of every stage in a state (Train_Model). Charts and thermodynamics are arbitrary functions. Proved by following the evaluation; the enthalpy of the outlet is the one of the PH flash within its tolerance.
* **C77** Power: the loss is an identity of the stage result; the power of a train follows from an invariant that every control path returns stages whose power is mass times head over efficiency.
* **C78** Splitting: `LegacySplitter`; proved by arithmetic on the fractions. `C78_too_much_refuted`: an excessive request is scaled down.
* **C79** Common speed: an invariant "the state holds the speed of the result and every stage is on its chart at that speed", carried through the speed search, the five pressure controls and the two-pressure evaluation (a Hoare-style logic for the state monad in Train_Proofs).
* **C80** Mass: the same logic with the invariant that the inlet stream is the one built from the request; `C80_common_refuted` for common recirculation.
* **C81** Pressure status: `check_target_pressures` against the reported pressures on every path; `C81_two_pressures_refuted` raises IndexError for a stage number that is larger than the last part.
* **C82** Validity: from C81 and the flags of the stages; `C82_power_refuted`.
* **C83** Independence: two runs from states that agree on nothing but a fixed speed stay related (a relational logic: every evaluation resets what it reads).
* **C84** Maximum rate: the same relation with the recirculation added to what must agree; `C84_history_refuted`.
* **C85** Standing still: the guard on the rates and the empty result.
* **C86** Controls: invariants on the recirculation set at every stage after each control.
* **C87** Root finding: `secant_method` with clamping, and `find_root` with its fallback as an arbitrary function; induction on the iterations.
* **C88** Cutting a train: `split_rates_on_stage_number`; induction on the stages.
* **C89** Sampled compressor, one variable: the table, its validation, the constant columns and the interpolation are modelled; the
  interpolation theorem (C48) is lifted to requests through the scatter and gather by index.
* **C90** Sampled compressor, two variables: the hull and the surface come from the environment, assumed to be the hull and a surface
  over it (`sound_geometry`); the classification of its edges and the projection are modelled. Proof: the lower edges form a chain whose
  interpolation is the lower boundary of the hull, so that the projection is a clamp. The three-dimensional table is environment only.
* **C91** Sampled compressor, periods: the result of a period is computed from its own entries; uniqueness of the period's meaning.
* **C92** Sampled compressor, power and validity: interpolation theorem for the table of fuel and power.
* **C93** Sampled compressor, largest rate: the last row of the sorted table, linked to C89.
* **C94** Division into sections: naming, partitioning and refusals are modelled; the division is specified by where a section ends;
  induction over the units for the walk, and a permutation argument for the constraints.
* **C95** Validation of sections: the validator, branch by branch, against the list of conditions.
* **C96** The assembled pipeline: composition of C94, C95, C59 and C60; ids from a counter stand for random UUIDs. Shaft, events, time series
  of the settings and the making of units from their definitions are not modelled.
* **C97** Direct venting emitters: condition, rate type, unit and regularity, specified per period from the values of the expressions; names as
  a dictionary where the last entry counts.
* **C98** Oil loading and storage: the same oil rate, times the factor per period; the storage rate.
* **C99** Fuel and electricity consumers: the coverage check against "in force", the series reported against the consumer result (which is an
  input here), the emissions by C26.
* **C100** Concatenated results: the loop over the results, the unit check, extending and filling; any number of results, any value type.
* **C101** Direct consumers end to end: from the YAML model and the run to the series of the consumer. A generic theorem (any kind of
  model, evaluated on the part of the run it applies to) is instantiated with the direct model; expressions on a part of the run are
  the part of the expression (C08), the models in force by C04, the concatenation by C100.
* **C102** Conditions: the joined text is a way of writing the product (C19), whose value is zero exactly when a factor is.
* **C103** Tabulated consumers end to end: the same generic theorem with the tabulated model; one variable by C48, several variables by an
  arbitrary interpolation function.
* **C104** Reading expression text: the lexer's ordered regular expressions as combinators over lists of characters; a relation between
  tokens and their spellings (`spells`, `laid_out`) says what the text of a token sequence may look like; induction over the layout
  shows the lexer gives the tokens back, unreadable characters are refused, and a text that is a number is that number. Refuted for
  numbers in scientific notation with two or more leading digits.
* **C105** Writing expression text: the text of tokens, read back, gives the same tokens; refuted for negative numbers.

* **C106** Accepted pressures: validate_pressures, by induction over the periods.
* **C107, C108** Pump and compressor consumers end to end: the three branches of the mapper are shown equal to one evaluation of a "plan"
  (machine and expressions); a generic theorem over plans uses the generic consumer theorem of C101. Pumps by C42, turbines by C52;
  other machines are arbitrary functions from operating points to results (C76 to C93 are about those).

* **C109** Pump and compressor systems end to end: the mapper's systems, the consumers, cross-over and the choice of a setting (C28, C29)
  are put together; a system whose consumers are only known on the values they get is shown equal to one with total consumers, then the
  generic consumer theorem of C101 applies. Refuted: descriptions without rates or total are accepted; a stopped pump system is refused.
* **C110** Consumers of a system: machines as components, evaluated and asked for their largest rate period by period; pumps by C42.
* **C111** The largest rate of a compressor with a turbine; the root finder is arbitrary with stated hypotheses. Refuted with adjusted
  energy usage and for sampled compressors.
* **C112** A whole model: `component_mapper.py` as a state monad over the next identity and the registered containers, then
  `evaluate_energy_usage` over the graph of C56. A relation says which part of the registration belongs to which part of the text; what is
  shown of the energy model is compared with the text. Energy usage models are of any type, their evaluation an argument.
* **C113** Which texts the mapper accepts, as an equivalence. Refuted: a generator set outside the run is an IndexError.
* **C114** The totals of a whole model: what is seen of the energy model (C112) is put together with the results of C26, C72 and C97 to
  C99. The specification (`Report_Spec.v`) says in terms of the text and of what is seen what each total is, as a relation, period by period.
* **C115** The object: its methods as functions of its state (validated, variables, registered components, cached energy model, results), run
  over any list of calls. Invariants by induction on the list. Identities registered after one another refer to later ones only, so what is
  registered when mapping fails never builds, unless it is empty. Refuted: a refused text is refused again.

* **C116** A train and a sampled compressor as machines (C108): the loop over the periods, with the state the train keeps, against the
  evaluation of one period; by induction on the series and C83, C91.
* **C117** All energy usage models as one type with the dispatch of the mapper (`Whole_Model.v`). Units and power of each kind of model
  by cases; C112 and C114 then hold without hypotheses on the evaluation of models. The specification is that of C112 and C114.
* **C118** The train and its stages function by function (`Simplified_Model.v`); flashes, roots and real powers are arbitrary functions. By
  induction on the list of stages; the series with `mapO` as a relation between lists.
* **C119** The iteration as an inductively defined sequence of guesses in the specification; the capacity by C68. The efficiency bounds by the
  property of charts. Refuted: no pressure increase needs no power; an invalid train names a failure; a maximum power of 0 is a limit.
* **C120** The iteration as a sequence of guesses again, the largest rate of the chart as interpolation between points of two curves. Refuted: the
  maximum rate considers the maximum power (as the documentation of the function says).
* **C121** The loop over sections as an inductive `in_turn`; frames of C40 say that a later section leaves an earlier one as it was, so that the stream behind it stays.
* **C122** Two passes over the sections; the first as an inductive `needs`, the second by induction with the settings in force at the common speed (the lemmas behind C39, one per kind of pressure control).
* **C123** Bisection over the rates with the answer of the solver as an oracle that does not depend on the state (C40). Refuted: the section takes what remains.
* **C124** Names: the validators of names over the input as lists; accepted iff no two places (a type of positions in the input) carry one name. Refuted: consumers of systems.
* **C125** References: the checks, the dictionary of the reference service and the construction of compressors from the models referred to; specification by what the input defines. Refuted: streams named unlike their key; tables for pumps and stages; generic charts for trains with speeds.
* **C126** Stages of a train of several streams: the stateful condition of the mapper; induction over the stages with the dictionary characterised as the first stage naming a stream. Refuted: all stages are built.
* **C127** Pump process simulations: the mapper of yaml to operating inputs over the periods of the run, then the pump of C42; accepted iff every period describes a liquid. Refuted: a model without START cannot be simulated.
* **C128** Events: dictionary of names, process events appended to the event they refer to; accepted iff names differ and references are known. Refuted: process events of the same name reach the wrong event.
* **C129** Process simulations: the whole mapper (units, streams, changes, constraints, sections of C94-C96, distribution), generic in how rates are evaluated; accepted iff the written model satisfies a specification that does not mention the mapper. Uses that a division into sections is unique (C94_unique). Refuted: number of fractions, repeated targets, CHANGE_FROM, unknown CHANGE_TARGET, no START.
* **C130** Streams of process simulations: rates with conditions over the periods of the run and fluids in one period, from the expression semantics of C20.
* **C131** Charts from files: columns by header, conversion, grouping by speed; acceptance and the curves from the rows of the file, and uniqueness of the curves up to the order of rows.
* **C132** Number of stages: logarithms, ceiling and roots over Coq's real numbers; the number is the least with enough stages, and the pressures of the stages form a chain of equal ratios in each period.
* **C133** Relative paths: file_io.py path functions modelled on lists of path parts and on texts (str.replace as such); the text is shown to be the written form of steps that lead to the file (`leads`), by induction on the common directory.
* **C134** Names: Counter and renaming modelled; distinctness from injectivity of joining parts without underscores.
* **C135** Files used: allowed_file, validate_filetypes, unpack_zip and get_main_file modelled with names as texts (split, suffix, substring tests); the archive reader and the test for a directory on disk are arguments.
* **C136** Flow diagrams: drawn from the graph of C56 by recursion to a depth; closedness by induction on the depth for any model, the rest from the layout of the hierarchy and the uniqueness of parents.
* **C137** model results as a tree of attributes (series, lists or dicts of results, anything else) and pandas frames as an index with named columns; the columns of the spec are read off the tree by one recursion; induction over the tree and the components shows that the joins give these columns exactly when the names of a component are distinct.
* **C138** the same tree; induction shows that resampling commutes with reading off the columns; composed with C137 for the table.
* **C139** model documents as trees and the search for date keys by the same recursion; induction over the tree gives the keys at any depth; composed with the periods of C25.
* **C140** the two ways files are collected (fixed places and a search) on the same trees; the spec names the places as an inductive predicate.
* **C141** the walk along a path; the spec says where a single key leads, and an induction over the path shows that the walk stops at the longest existing part and keeps the innermost mapping.
* **C142** files before construction as trees with includes; construction is related to an inductive expansion in both directions (soundness for any fuel, completeness for enough of it).
* **C143** the registered constructor as the state of a process and each read as a step; results after any list of earlier reads are compared with a read alone.
* **C144**, **C145** a run as a list of documents that are written one after the other to a disk of directories and files, with the path of each as `pathlib` makes it; names are compared with an independent relation, and two runs are composed.
* **C146** chart data to the chart of the results, with the constraints of its fields; the margin line is compared with interpolation on the original curves.
* **C147** Models as trees of fields with their annotations, mappings and sequences; the resolver as a recursive function on the tree. Proved by induction on the typed path to a place (replaced, rest) and by a nested induction on values (unknown, same); witnesses for the references that remain.
* **C148** Texts as lists of characters; the pattern as a deterministic reader (no backtracking is needed), decimal numbers as folds over digits. The specification defines decimal notation and the form of a version by itself; proved by induction on texts and on the digits of numbers.
* **C149** Models as trees of fields with annotations; the search as a recursive function. Nothing but expressions: nested induction on values. All of them: induction on the chain of models from the outside to the one with the expression. Witnesses for what is missed.
* **C150** The disk as a function from names to files, the readers of one file and the validation of the configuration as function arguments; the loop over the names. Proved by induction on the names with an invariant on the resources found so far; a witness for a file that is no text.
* **C151** The validation over plain and dated categories, and the mapping from a generator set to its power production with the temporal model of the categories. Proved by tracing every category of the temporal model back to the given ones and by the theorem on cable loss (C53).
* **C152** The process-wide service as a state (current service, objects, Java processes, configuration, what caches refer to), operations as functions on it with failing starts and closings as arguments; invariants by induction over histories.
* **C153** validate_expression on top of the models of the lexer and of the evaluation; acceptance characterised by induction over tokens, linked to evaluation by the theorem on well-formed expressions (C21).
* **C154** The function over association lists with distinct keys; loop invariant, and a pigeonhole argument for the keys.
* **C155** The loop that collects the types; invariant by induction over the times.
* **C156** The text of a place as a function of its keys; unique readability by induction over the keys.
* **C157** The conversion with the zip of dates and values; by induction over the items, for dates in order.

## Trusted base

* Coq 8.16.1's kernel (and its virtual machine, used by `vm_compute` in examples and witnesses).
* No axioms are declared. `Print Assumptions` is run after every property theorem in the `_Props.v` files; every one of them prints
  "Closed under the global context", except those of C132 (see Axioms below).
* The model: each definition cites the lines of /repo it models, and says where it simplifies. Python floats are modelled as exact
  rationals; rounding, overflow, NaN and infinity are only modelled where a definition says so (`num` = rational or NaN).
* Third-party behaviour is modelled from its documentation where a property depends on it (pandas resampling, numpy/scipy linear
  interpolation, networkx traversals, decimal/str parsing); the comment at the definition names it. Thermodynamics (NeqSim), charts
  and numeric root finders are arbitrary functions or explicit hypotheses.
* Axioms: the theorems of C132 (`Stages_Props.v`), which speak of logarithms and roots of real numbers, depend on the axioms of the
  standard library's real numbers: `ClassicalDedekindReals.sig_not_dec`, `ClassicalDedekindReals.sig_forall_dec`,
  `FunctionalExtensionality.functional_extensionality_dep` and `Classical_Prop.classic`. No other property theorem depends on an
  axiom (`Print Assumptions` after each of them). Other modules load the reals because `lra`/`Psatz` do, and `ssrunder`'s opaque
  signature is in the loaded context, but their theorems use none of this.

## Which parts of the code are modelled

Paths are below src/libecalc unless they start with `ecalc_`. Every definition in a model file cites lines; this is the overview.

| Model | Modelled | Not modelled of those files |
|---|---|---|
| Time | common/time_utils.py, common/temporal_model.py | sub-second dates, string formats of dates |
| Rates | common/utils/rates.py, common/list/list_utils.py (used parts) | pydantic validation, JSON encoding |
| Units | common/units.py | float rounding |
| Expr, Lexer | expression/expression_evaluator.py, expression_tree.py, expression.py | float overflow, `inf`/`nan` literals, non-ASCII text |
| Vars | common/variables.py, expression/temporal_expression.py, mappers/variables_mapper/variables_mapper.py | YAML types |
| Input | presentation/yaml/yaml_entities.py (MemoryResource), yaml/domain/time_series*.py, mappers/variables_mapper/get_global_time_vector.py | CSV parsing, date formats |
| Energy | domain/regularity.py, hydrocarbon_export.py, fuel model, generator set, turbine, power and cable loss, conditional flow rates | plotting, DTO validation |
| Interp | common/interpolation.py, tabulated energy function (one variable) | interpolation in several variables (an arbitrary function in Consumer) |
| System | energy_components/legacy_consumer/system, common/priority_optimizer.py | what the consumers of a system compute |
| Consumer | mappers/consumer_function_mapper.py (direct and tabulated models), legacy_consumer/component.py, core/result/results.py | |
| Equipment | mappers/consumer_function_mapper.py (pump, compressor and multiple-streams models), evaluation_input.py, compressor/core/base.py, results of pumps, compressors and turbines, model.py (evaluation of machines) | charts made from the whole time series of inputs |
| Systems, Component | yaml_energy_usage_model_consumer_system.py, mappers/consumer_function_mapper.py (system branches), legacy_consumer/system/types.py and results.py, compressor/core/base.py (largest rate) | the validator that looks at referenced models (129-160); NaN rates and pressures |
| Emitters | emitters/venting_emitter.py, fuel_consumer.py, electricity_consumer.py | |
| Graph | common/graph.py, energy_container_energy_model_builder.py | flow diagrams |
| Totals | presentation/json_result/mapper.py (totals, validity, listing), emission_intensity.py | the per-model result details |
| Export, Attributes | presentation/exporter (queries, appliers, aggregators, formatters, infrastructure) | configs/configs.py (the table of columns), file writing |
| Simple | presentation/simple_result/simple.py | JSON encoding |
| Numbers | common/math/numbers.py | |
| Cache, Flash | ecalc_neqsim_wrapper/cache_service.py, fluid_service.py | the Java bridge, NeqSim itself (an arbitrary record of functions) |
| Stream | process/fluid_stream/* | thermodynamics (arbitrary functions) |
| Names | string_utils.get_duplicates, yaml_asset.py validators, yaml_reference_service.py, model_reference_validation.py, check_compressor_chart, the system check of charts, create_compressor_model as far as references go | contents of charts, files, pressures; several errors at once (the first is kept) |
| Duty | mappers/pump_process_simulation_mapper.py, model.py (get_pump_process_simulations, period), LiquidStream.from_volume_rate | the lookup of the pump by name (Names), units of charts |
| Simulations | mappers/ecalc_event_mapper.py, ecalc_event.py, mappers/process_simulation_mapper.py (events, streams, units, changes, distribution), time_series_fluid_model.py | reading charts from files, descriptions, ids other than places in lists, the runs themselves (Solver, Several, Distribution) |
| Files | mappers/charts/user_defined_chart_data.py (from_resource, from_yaml_curves), mappers/utils.py (units of charts), resource.py, yaml_entities.py (get_column) | parsing of csv text; pandas with repeated headers or ragged columns (an error here); texts such as nan that float() accepts |
| Stages | mappers/simplified_train_mapping_utils.py (calculate_number_of_stages), mappers/consumer_function_mapper.py (stages of a simplified train, their pressures) | rounding of logarithms (in floating point the number can be one more when the ratio is an exact power); pressures that are not positive (an error here); the charts made from the pressures |
| Archive | `infrastructure/file_io.py`: EcalcFile, EcalcFiles, find_longest_common_path … make_relative_paths, find_duplicates, rename_duplicates, unpack_zip | reading zip archives and decoding bytes (arguments); absolute and Windows paths; files are told apart by their path |
| Flow | `presentation/flow_diagram/energy_model_flow_diagram.py` (all of it), `flow_diagram_dtos.py` | ids are the texts of UUIDs (here: the ids themselves, apart from the two fixed nodes); labels of flows |
| Csv | `Csv_*.v` | writing numbers, dates and "nan" as text; frames about different dates in pd.concat; repeated dates; json output |
| Document | `Document_*.v` | the YAML parser, anchors and merge keys; file names; resources given as open streams; validation of sections by pydantic; FILE that is neither empty nor text |
| Reads | `Reads_*.v` | resources given as open streams; reads in parallel |
| Outputs | `Outputs_*.v` | what is in the documents (other areas); links, permissions, a full disk; that the model file exists |
| Shown | `Shown_*.v` | how generic curves are made (Generic area); warnings in the log; names of the fields in JSON |
| Definitions | `Definitions_*.v` | pydantic itself (the annotations are given with the fields); keys of mappings other than texts; sets of values that become equal |
| Version | `Version_*.v` | digits of other scripts; negative numbers given to the constructor; comparison with other objects |
| Extract | `Extract_*.v` | how one expression is split into its references (a function argument; the tokens of expressions are in Expr_*.v); pydantic itself |
| Sources | `Sources_*.v` | how one file is read (arguments here; see Csv and Timeseries areas); the text of messages; files that change or vanish between the check and the reading |
| Shore | `Shore_*.v` | the text of messages; the evaluation of the expression of the loss (an argument) |
| Gateway | `Gateway_*.v` | The launching of Java, the pattern of maximum_memory, signals and the end of the Python process; threads |
| Refcheck | `Refcheck_*.v` | The text of errors; how pydantic passes the context |
| Subtract | `Subtract_*.v` | Rounding; values that are None |
| Modeltype | `Modeltype_*.v` | The text of the error; the models but for their type |
| Location | `Location_*.v` | _parse_key, the rest of the text of an error, years of fewer than four digits |
| Convert | `Convert_*.v` | Keys that are texts; is_temporal_model |
| Process, Search, Solver, Distribution | process/process_units/*, process_pipeline/*, process_solver/*, stream_distribution/* | logging, events |
| Sections | mappers/process_simulation_mapper.py (listing of units), mappers/process/* | the mapping of charts and fluids there |
| Chart, Compressor, Generic | domain/process/value_objects/chart/* | shapely's nearest points and scipy's splines (arbitrary functions) |
| Pump | process/pump/*, domain/process/pump/pump.py | plotting |
| Train | domain/process/compressor/core/train/{base,stage,compressor_train_common_shaft}.py, results.py, process units of the old trains | NaN in the input |
| Asset | presentation/yaml/mappers/component_mapper.py, presentation/yaml/model.py (evaluation), energy_container_energy_model_builder.py | categories, cable loss, maximum usage from shore; the mapping of energy usage models is in Consumer, Equipment, Systems |
| Simplified | domain/process/compressor/core/train/simplified_train/*, train/utils/enthalpy_calculations.py (head iteration), stage.py (evaluation for a pressure ratio) | charts made from the input, several values in one iteration (the code iterates on arrays of one value) |
| Machines | compressor/core/train/base.py (evaluate), sampled/compressor_model_sampled.py (as machines) | the maximum rate in results |
| Whole | mappers/consumer_function_mapper.py (from_yaml_to_dto, the choice of model) | references to models by name |
| Lifecycle | presentation/yaml/model.py (the object and its state) | the check of references |
| Sampled | domain/process/compressor/core/sampled/* | Delaunay triangulation of three-dimensional tables (an environment with stated facts) |

Not modelled at all: the command line, YAML loading, schema validation other than the names and
references of C124-C126, file output, flow diagrams, logging, the NeqSim Java bridge, and `testing/`.

## Findings

Expectations that a user could have of the program and that the model refutes.  Each theorem gives a concrete witness.  The
properties in `properties.jsonl` are stated so that they hold; what is excluded is here.  (The table is printed by
`tools/findings.py`.)

| Theorem | What fails |
|---|---|
| C05_overlapping_periods_refuted | It fails for overlapping period keys: the last entry wins after restriction, the first before. |
| C05_unsorted_dates_refuted | It fails for date keys written out of order: an outdated model is used silently. |
| C06_off_midnight_refuted | It fails for a series that does not start at midnight: its range changes. |
| C08_outside_refuted | It fails: a period entirely outside gives an IndexError instead of an empty subset. |
| C08_reaching_outside_refuted | It fails: a period that reaches outside the global period is not clamped but an error, although the code computes the clamped dates and both are on the grid. |
| C11_stream_average_refuted | Where the calendar-day volume is zero (regularity zero) the stream-day average is lost. |
| C13_extend_rates_gap_refuted | Extending a rate series accepts a series that is not adjacent. |
| C13_extend_rates_order_refuted | Extending the later part of a rate series by the earlier gives periods out of order. |
| C14_zero_rates_refuted | When regularity differs in some period, a period in which both rates are zero gets a calendar-day rate that is not a number. |
| C16_off_grid_refuted | A change between two dates of the new grid is lost. |
| C21_juxtaposition_refuted | It fails: two operands without an operator are accepted and the first is dropped. |
| C21_unsupported_operator_refuted | It fails: an unsupported operator can be accepted and only fails when evaluated. |
| C23_date_inside_period_refuted | It fails when a date lies strictly inside a period: that period silently gets 0. |
| C23_unsorted_dates_refuted | It fails when the dates are written in another order: the expressions move to other dates. |
| C26_duplicate_refuted | It fails: the names are lower-cased, so a fuel with CO2 and co2 is an assertion failure. |
| C27_margin_refuted | In a period in which no table of the generator set applies it is invalid although its margin is not negative, and its fuel is 0 although power is required. |
| C29_chain_refuted | It fails for a consumer that both sends and receives: it ends above its maximum although its own receiver has room. |
| C32_tolerance_refuted | It does not reach the tolerance in general: the default search stops after 20 halvings. |
| C33_infeasible_refuted | It fails when the condition does not hold at the lower end: the result then violates the condition. |
| C35_own_share_refuted | With an overflow between two consumers and no excess anywhere, two consumers get each other's fraction. |
| C37_liquid_refuted | With a liquid remover inside a recirculation loop the mass that leaves is not the mass that enters. |
| C39_stage_refuted | A target for each stage: the next stage is solved against the last point asked for, and the run misses the target. |
| C39_tolerance_refuted | A root finder that stops near the root, as the one in use does, gives no bound on the pressure. |
| C39_unsettled_refuted | A choke in front: the loop is left as the last point asked for needs it, and the run of the "successful" solution surges. |
| C42_power_refuted | Power can be negative, as the heads of a chart are not checked. |
| C45_partial_periods_refuted | Components that cover only some of the model's periods, which eCalc's own results do not contain, are moved in time. |
| C45_power_refuted | A component with power in only one of the models loses its power in the difference. |
| C46_max_refuted | The exported maximum usage is not the maximum. |
| C46_nan_refuted | A value that is not a number makes the sum of all matching attributes zero. |
| C46_same_name_refuted | Two columns of the same name show the values of the first. |
| C49_zero_refuted | It fails for the number 0: like no regularity at all it means 1. |
| C50_minus_zero_refuted | A small negative number can be printed as minus zero. |
| C50_precision_refuted | The guard admits a precision of -1, for which the error is no longer bounded by half a unit. |
| C51_case_refuted | Headers that differ only in letter case both give the first of the columns. |
| C52_below_table_refuted | It fails: positive power below the smallest tabulated load uses no fuel and is not flagged. |
| C52_flag_refuted | It fails: power within the maximum power is flagged as exceeding the maximum load. |
| C55_transitive_refuted | Equality within a tolerance is not transitive. |
| C58_transparent_refuted | A second flash a ten-millionth of a bar away gets the cached answer of the first. |
| C66_fuel_change_refuted | A fuel whose category changes while another fuel is used makes the export fail, although its category is known in every period. |
| C67_no_flow_refuted | Without recirculation, no flow is an internal error |
| C67_recirculated_refuted | A rate through the compressor beyond the chart is accepted, or an internal error. |
| C68_crossing_refuted | With crossing curves a point above the chart is accepted |
| C69_large_margin_refuted | A margin beyond the range of rates leaves one point that is not on the curve |
| C70_input_refuted | Without throttling, a chart made from rates and heads need not hold them |
| C72_negative_power_refuted | With powers of opposite sign and different regularities the calendar-day power of the total is not the sum |
| C78_too_much_refuted | When there is not enough, less is given at an offtake than was asked for and no error is raised. |
| C80_common_refuted | The common recirculation reports, for a pressure it cannot reach, another rate than the one requested |
| C81_two_pressures_refuted | A request for two pressures that makes sense is not always answered: the two parts of the train look for the stage of the intermediate pressure in themselves |
| C82_power_refuted | With a pressure ratio of its own for every stage the maximum power is not looked at |
| C84_history_refuted | The maximum rate depends on the recirculation that the last evaluation left behind |
| C89_constant_refuted | A table in which no variable varies -- in particular one with a single row -- is acceptable, but is not supported. |
| C90_accepted_refuted | A table with three different points that do not lie on a line is not always accepted. |
| C90_centre_refuted | Without the condition on the centre a request inside the table is answered with the value at another point. |
| C93_two_refuted | With a rate that varies together with a pressure the largest rate cannot be asked for. |
| C94_refused_refuted | "Units and constraints that do not fit are refused with a validation error" is false: a constraint on the last unit together with one on the outlet raises an IndexError. |
| C96_earlier_target_refuted | "The pressure constraint of a section applies at the outlet of the section's last unit" is false: for every section but the last it is attached one unit too early. |
| C97_duplicate_refuted | It fails for emissions whose names differ only in case (or not at all): only the last is reported. |
| C99_gap_refuted | It fails when the fuels have a gap between them. |
| C102_zero_refuted | It fails for the condition 0, which counts as not given. |
| C104_exponent_refuted | It fails for numbers in scientific notation with two digits or more before the point: such a number is read as a number only where it stands alone. Inside an expression it is split in a number and a reference, and the rest of the expression may be dropped: with a variable e5 the text 2 {*} 12e5 means 12 times e5. |
| C105_negative_refuted | It fails for an expression with a negative number in it: its text is refused. |
| C108_message_refuted | A compressor without suction pressure fails with AssertionError instead of a message. |
| C109_not_in_use_refuted | A system of pumps that is not in use is refused for its pressures; the same system of compressors is not. |
| C109_rates_refuted | A setting of a system without rates is accepted and fails with TypeError. |
| C109_total_refuted | A setting of a system with fractions and no total rate is accepted and fails with AssertionError. |
| C111_adjusted_refuted | The adjustment of the energy usage is left out when the largest rate of a compressor with turbine is found. |
| C111_sampled_refuted | A sampled compressor with a turbine has no largest rate at all. |
| C113_outside_refuted | A generator set whose tables apply only outside the run is refused, not left out as a consumer is, and with IndexError instead of a message that says what is wrong. |
| C115_again_refuted | A text that is refused is not refused again: validate_for_run marks the model as validated before its components are mapped, so the second call, and evaluating after it, report no error. |
| C119_no_increase_refuted | A train that need not increase the pressure may still use power. |
| C119_no_power_refuted | A maximum power of 0 is no limit. |
| C119_unexplained_refuted | A train may be invalid although no failure is reported. |
| C120_power_ignored_refuted | The maximum power plays no part in the maximum rate. |
| C123_remaining_refuted | As one would like it fails: the section need not take what remains after the excess, and when it takes nothing some of the gas is still not called excess. |
| C124_systems_refuted | The message of the check says that consumers of systems are included; they are not. |
| C125_generic_chart_refuted |  |
| C125_keys_refuted | A stream named otherwise than its key hides what has that name, and is not found under its key. |
| C125_pump_refuted | References that are accepted, but refused when the model is built. |
| C125_stream_key_refuted |  |
| C125_table_chart_refuted |  |
| C126_stages_refuted | So a train may be built with fewer stages than were asked for. |
| C127_no_start_refuted | It fails for models without a START (it is optional, and then the first date of the time series counts): the variables are looked up for a period that begins in 1900. |
| C128_same_name_refuted | "The event of a process event is the one it refers to" is false: names of process events need not be unique, and the process event of another event is found. |
| C129_change_from_refuted | "A change replaces the unit it says it replaces" is not checked: the unit to change from is never read. |
| C129_fractions_refuted | "There is a rate fraction, or an inlet stream, for every target" is not checked. |
| C129_no_start_refuted | It fails for models without a START, as C127 does. |
| C129_target_refuted | "What is not accepted is refused with a validation error" is false: a change of a unit that is not there raises a KeyError. |
| C129_twice_refuted | "Every target is listed once" is not checked; an overflow to it reaches only the last of them. |
| C131_header_case_refuted | "The case of the headers does not matter" is true for one speed and false for several: the same file is refused, and with a KeyError that is no validation error if it is another header than SPEED. |
| C131_other_columns_refuted | "Only the columns of the chart are read" is true for one speed and false for several: a column of texts, which is not used, is refused. |
| C131_same_speed_refuted | "A chart has one curve for each speed" is false for curves in the model file: two of one speed are accepted. |
| C132_equal_pressures_refuted | "A train is made for any positive pressures" is false: without a period that raises the pressure it is an error ... |
| C132_ratio_one_refuted | ... and a ratio of 1, which can be written, divides by zero. |
| C133_repeated_directory_refuted | The common directory is removed wherever it is written in a path: with a/m.yml, the file a/ba/x.csv is given the path bx.csv. |
| C133_same_path_refuted | Two files can get the same relative path: with a/m.yml, both a/b/a/x.csv and a/b/x.csv get b/x.csv. |
| C134_underscores_refuted | With underscores in names two files can get the same name: a/b.csv, c/b.csv and a_b.csv. |
| C135_case_refuted | Data.CSV given by itself is refused, although it is accepted in an archive. |
| C135_dot_refuted | A file without an extension below a directory with a dot in its name (runs.v2/data) ends in an IndexError, not in the list of invalid files. |
| C137_distinct_refuted | With dots in the names, different components can give columns of the same name; both are written. |
| C141_file_refuted | For a mapping in an included file, the line is that in the included file but the name that of the main file. |
| C143_not_allowed_refuted | A read that may not include files uses the directory of an earlier read. |
| C144_no_co2_refuted | The results of a model without an emission called CO2 are not written at all. |
| C144_outside_refuted | With an empty prefix the table of results is written beside the output folder. |
| C144_slash_refuted | An installation may have a slash in its name, and then the export of a run fails. |
| C145_dots_refuted | Prefixes that differ after the last dot only: the second run writes over the results of the first. |
| C145_intensity_refuted | A prefix that ends in _intensity: the second run writes over the intensities of the first. |
| C146_zero_efficiency_refuted | A curve with an efficiency of 0 is accepted for a compressor, but its results cannot be made. |
| C147_nested_refuted | A reference within a definition is not replaced. |
| C147_optional_refuted | References in an optional list (list[T / DefinitionReference] / None) are not replaced. |
| C148_invalid_refuted | 10.0.0-rc1 is read as 0.0.0, like no version at all, and so is older than 2.0. |
| C148_long_refuted | A number with more than 4300 digits is an error of Python, not 0.0.0. |
| C149_model_or_expression_refuted | A model in a field for an expression or a model is not searched. |
| C149_tuple_refuted | Expressions in a tuple or set are not found. |
| C150_no_text_refuted | One file that is not a text (in the encoding of the system) ends the validation with another exception: the errors of all other files and of the configuration are not told. |
| C151_before_run_refuted | A cable loss is accepted although there is no power from shore in the time of the run, and it never counts. |
| C152_failed_close_refuted | A Java process that could not be closed runs on beside that of the next service; closing its service again closes the process of the next service instead. |
| C152_nested_refuted | Leaving an inner context ends the service of the outer context too: its next use raises an error. |
| C152_subclass_refuted | A configuration set on the class that factory() returns is accepted and ignored. |
| C153_syntax_refuted | An expression is accepted although it can never be evaluated: only its symbols are checked, not its syntax. |
| C156_dates_refuted | A name that looks like a date is shown as that date. |
| C156_dots_refuted | A name with a dot in it is shown as two names. |
| C157_order_refuted | With dates out of order another expression than the one given last is used. |
