{
 "C05": {
  "note": "Proved for dates in increasing order and for disjoint periods. Refuted (with witnesses) for date keys out of order and for overlapping period keys."
 },
 "C06": {
  "note": "Proved for series from midnight to midnight. Refuted (with witness) for a series starting off midnight."
 },
 "C08": {
  "note": "See the theorem comments: proved variant and refuted part with witness are both stated in properties.jsonl."
 },
 "C26": {
  "note": "Refuted (witness) for a fuel that lists an emission twice up to letter case."
 },
 "C27": {
  "note": "Refuted (witness) for periods without a model in force: invalid with margin 0."
 },
 "C49": {
  "note": "Refuted (witness) for the number 0, which means 1."
 },
 "C51": {
  "note": "Refuted (witness) for headers that differ only in letter case."
 },
 "C52": {
  "note": "Refuted (witnesses) for the flag with an adjusted maximum load and for power below the table."
 },
 "C29": {
  "note": "Refuted (witness) for a consumer that both sends and receives."
 },
 "C32": {
  "note": "Refuted (witness): the tolerance is not always reached by the default 20 iterations; accuracy proved as tolerance or width/2^n."
 },
 "C33": {
  "note": "Refuted (witness) when the condition fails at the lower end."
 },
 "C55": {
  "note": "Transitivity of == refuted (witness). Comparing two targets with each other is not modelled."
 },
 "C35": {
  "note": "Refuted (witness): with a declared overflow the fractions follow topological order, not the order of the items."
 },
 "C34": {
  "note": "One fraction per item assumed. Only the first overflow declared from an item is used, as in the code."
 },
 "C43": {
  "note": "For streams as the fluid service makes them (proper composition, molar mass of that composition)."
 },
 "C39": {
  "note": "Proved for each of the five pressure controls under explicit conditions on the root finder (accuracy in the function value; for upstream choke and per-stage targets also that the answer is the last point asked for). Refuted with witnesses without these conditions."
 },
 "C37": {
  "note": "Refuted (witness) for a liquid remover inside a loop; proved for loops of units that keep the flow."
 },
 "C58": {
  "note": "Exact transparency refuted (witness: neighbours with the same rounded key); proved that every answer is the fresh calculation of a request with the same key."
 },
 "C11": {
  "note": "The unrestricted English claim is refuted with a witness (theorem ending in _refuted); properties.jsonl carries the restated claim, which is proved."
 },
 "C13": {
  "note": "The unrestricted English claim is refuted with a witness (theorem ending in _refuted); properties.jsonl carries the restated claim, which is proved."
 },
 "C14": {
  "note": "The unrestricted English claim is refuted with a witness (theorem ending in _refuted); properties.jsonl carries the restated claim, which is proved."
 },
 "C15": {
  "note": "The unrestricted English claim is refuted with a witness (theorem ending in _refuted); properties.jsonl carries the restated claim, which is proved."
 },
 "C16": {
  "note": "The unrestricted English claim is refuted with a witness (theorem ending in _refuted); properties.jsonl carries the restated claim, which is proved."
 },
 "C23": {
  "note": "The unrestricted English claim is refuted with a witness (theorem ending in _refuted); properties.jsonl carries the restated claim, which is proved."
 },
 "C21": {
  "note": "Exact for sequences without operands side by side: they evaluate iff they are well-formed infix expressions. Refuted (witnesses) for two operands side by side, which are accepted with the first one dropped, and for acceptance before evaluation of an unsupported operator."
 },
 "C78": {
  "note": "The unrestricted English claim is refuted with a witness (theorem ending in _refuted); properties.jsonl carries the restated claim, which is proved."
 },
 "C80": {
  "note": "The unrestricted English claim is refuted with a witness (theorem ending in _refuted); properties.jsonl carries the restated claim, which is proved."
 },
 "C81": {
  "note": "The unrestricted English claim is refuted with a witness (theorem ending in _refuted); properties.jsonl carries the restated claim, which is proved."
 },
 "C82": {
  "note": "The unrestricted English claim is refuted with a witness (theorem ending in _refuted); properties.jsonl carries the restated claim, which is proved."
 },
 "C84": {
  "note": "The unrestricted English claim is refuted with a witness (theorem ending in _refuted); properties.jsonl carries the restated claim, which is proved."
 },
 "C89": {
  "note": "The unrestricted English claim is refuted with a witness (theorem ending in _refuted); properties.jsonl carries the restated claim, which is proved."
 },
 "C90": {
  "note": "The unrestricted English claim is refuted with a witness (theorem ending in _refuted); properties.jsonl carries the restated claim, which is proved."
 },
 "C93": {
  "note": "The unrestricted English claim is refuted with a witness (theorem ending in _refuted); properties.jsonl carries the restated claim, which is proved."
 },
 "C94": {
  "note": "Finding: a constraint on the last unit together with one on the outlet raises IndexError instead of a validation error (C94_refused_refuted)."
 },
 "C96": {
  "note": "Finding: for every section but the last the constraint is attached to the last unit but one (C96_earlier_target_refuted); the code's comment says the last unit."
 },
 "C97": {
  "note": "Finding: emissions whose names differ only in case overwrite each other (C97_duplicate_refuted)."
 },
 "C99": {
  "note": "Finding: a gap between fuels given as periods passes the check (C99_gap_refuted); fuels given by dates have no gaps."
 },
 "C100": {
  "note": "Finding: a single result without power removes the power of the whole run (stated in C100_concatenated)."
 },
 "C101": {
  "note": "Direct models given plainly or by date. Finding: a loss factor of one gives no number but counts as valid."
 },
 "C102": {
  "note": "Finding: CONDITION: 0 does not switch a model off (C102_zero_refuted)."
 },
 "C103": {
  "note": "Interpolation in several variables is an arbitrary function of table and point; headers of a table are distinct."
 },
 "C109": {
  "note": "Findings: descriptions without rates, or with fractions but no total, are accepted and fail later (C109_rates_refuted, C109_total_refuted); a pump system not in use is refused for its pressures (C109_not_in_use_refuted)."
 },
 "C110": {
  "note": "NaN rates and pressures are not modelled."
 },
 "C111": {
  "note": "Findings: adjusted energy usage is ignored by the largest rate (C111_adjusted_refuted); sampled compressors with a turbine have no largest rate (C111_sampled_refuted). The root finder is an argument with stated hypotheses."
 },
 "C112": {
  "note": "Energy usage models and their evaluation are arguments; the results of pumps, compressors and systems are those of C100 to C111. Fresh identities never repeat. Dates may be written, periods not; the run does not cut a period; tables of generator sets do not change inside a period."
 },
 "C113": {
  "note": "Finding: a generator set whose tables lie outside the run is refused with IndexError (C113_outside_refuted). What is wrong inside an energy usage model is found when it is evaluated (C100 to C111)."
 },
 "C114": {
  "note": "The unit of the fuel of an energy usage model is a hypothesis on the evaluation of models (true for the models of C100 to C111). Fuels list an emission once (C26_duplicate_refuted otherwise) and change between periods. A power that is not a number counts zero in the total; the cumulative power is stated for powers that are numbers and not negative (C72_negative_power_refuted)."
 },
 "C115": {
  "note": "Finding: a text whose components are refused is accepted by the second call, because the model is marked as validated before its components are mapped (C115_again_refuted). Pumps and compressors are evaluated before the loop in the code; the model evaluates them in it, so that which results exist after a failed evaluation is not claimed."
 },
 "C116": {
  "note": "Fixed-speed trains keep a speed in their state: the theorem asks that it is the same for the series and for the period alone. For sampled compressors the statement is about series whose evaluation succeeds."
 },
 "C117": {
  "note": "Numerical libraries (powers, interpolation in several variables, nearest point, flash, root finder) are arbitrary functions. In the code a model is evaluated period by period as a numpy series: that this is the same is C83, C91 and C116 for the machines. Charts made from the whole series of inputs and simplified trains are not included."
 }
}