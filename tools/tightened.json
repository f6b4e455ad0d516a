{
 "m080": {
  "theorems": [
   "c79_values",
   "c79_ragged"
  ]
 },
 "m082": {
  "theorems": [
   "c79_values",
   "c79_ragged"
  ]
 },
 "n009": {
  "theorems": [
   "c73_gaussian",
   "c73_hurdle"
  ]
 },
 "n010": {
  "theorems": [
   "c73_gaussian"
  ]
 },
 "n011": {
  "theorems": [
   "c73_gamma"
  ]
 },
 "n030": {
  "theorems": [
   "c63_rank_hist_partial"
  ]
 },
 "n085": {
  "theorems": [
   "c69_verifier_partial"
  ],
  "note": "tried again as q008"
 },
 "n105": {
  "theorems": [
   "c58_values"
  ],
  "note": "tried again as q009"
 },
 "s024": {
  "theorems": [
   "c83_saving_off",
   "c83_rmse",
   "c83_history"
  ],
  "note": "tried again as q005"
 },
 "s025": {
  "theorems": [
   "c83_saving_off",
   "c83_rmse",
   "c83_history"
  ],
  "note": "tried again as q006"
 },
 "s037": {
  "theorems": [
   "c84_constructor",
   "c84_setters"
  ],
  "note": "tried again as q007"
 },
 "m043": {
  "theorems": [
   "c22_function"
  ],
  "note": "first killed only by theorems of other properties"
 },
 "m087": {
  "theorems": [
   "c32_refuses"
  ],
  "note": "first killed only by theorems of other properties; tried again as q012"
 },
 "s042": {
  "theorems": [
   "c84_setters"
  ],
  "note": "first killed only by theorems of other properties; tried again as q010"
 },
 "s012": {
  "note": "ill-formed edit (drops a section variable); tried again as q001"
 },
 "s013": {
  "note": "ill-formed edit (changes the arguments of later definitions); tried again as q002"
 },
 "s016": {
  "note": "ill-formed edit; tried again as q003"
 },
 "s043": {
  "note": "ill-formed edit; tried again as q004"
 },
 "p014": {
  "note": "ill-formed edit (scope of the numeral); tried again as q011"
 },
 "p045": {
  "theorems": [
   "c75_metric"
  ],
  "note": "tried again as q900"
 },
 "p046": {
  "note": "not observable: the false alarm rates handed to auc never descend (c75_curve), so the edited branch is not reached"
 },
 "q004": {
  "theorems": [
   "c88_metric_footprint"
  ]
 },
 "q067": {
  "theorems": [
   "c58_flag"
  ]
 },
 "q077": {
  "theorems": [
   "c80_name_taken"
  ]
 },
 "q080": {
  "theorems": [
   "c80_early_return"
  ]
 },
 "q083": {
  "theorems": [
   "c81_times_partial"
  ]
 },
 "a032": {
  "theorems": [
   "c62_second_call_refuted",
   "c62_second_call_partial"
  ],
  "note": "the edit itself changes nothing observable (with no workers sampling raises), but no theorem used the definition"
 },
 "a165": {
  "note": "not observable: the false alarm rates handed to auc never descend (c75_curve), so the edited branch is not reached"
 },
 "p055": {
  "theorems": [
   "c81_times_partial"
  ],
  "note": "tried again as q083: killed"
 },
 "t002": {
  "note": "not observable: the constructor turns an integer axis into a tuple before it is used"
 },
 "t003": {
  "theorems": [
   "c85_encoding"
  ],
  "note": "tried again as u001: killed"
 },
 "t004": {
  "theorems": [
   "c85_encoding"
  ],
  "note": "tried again as u002: killed"
 },
 "t025": {
  "theorems": [
   "c91_reliability",
   "c93_reliability"
  ],
  "note": "tried again as u003: killed"
 },
 "t027": {
  "theorems": [
   "c91_reliability",
   "c93_reliability"
  ],
  "note": "tried again as u004: killed"
 },
 "t028": {
  "theorems": [
   "c91_reliability",
   "c93_reliability"
  ],
  "note": "tried again as u005: killed"
 },
 "t074": {
  "note": "not observable: the shapes of the forecasts are checked first, which refuses such entries"
 },
 "t075": {
  "note": "not observable: the shapes of the forecasts are checked first, which refuses texts"
 },
 "t078": {
  "note": "not observable: the constructor requires a callable"
 },
 "a169": {
  "note": "not observable: roc_curve returns at least two points"
 },
 "a204": {
  "note": "only by a direct call of the helper with no bins"
 },
 "a041": {
  "theorems": [
   "c63_rejects"
  ],
  "note": "theorem added; tried again as w001"
 },
 "a287": {
  "theorems": [
   "c59_exception"
  ],
  "note": "tried again as w007 after the tightening: killed"
 },
 "a136": {
  "theorems": [],
  "note": "not reachable: the threshold is always put before the members, so the list is never empty"
 },
 "va28": {
  "theorems": [
   "c64_value"
  ],
  "note": "survived: the theorem named the doubling function of the model; tried again as aa28: killed"
 },
 "va12": {
  "theorems": [
   "c56_coords",
   "c56_ordered",
   "c56_refused"
  ],
  "note": "first killed only by theorems of other properties: the theorems named a helper of the model; tried again as aa12: killed"
 },
 "va06": {
  "note": "ill-formed edit; tried again as aa06"
 },
 "va17": {
  "note": "killed by theorems of C71 only: those of C37 concern the common code of the parametric verifiers, not this distribution"
 },
 "wa13": {
  "note": "the run ended early (time limit in Props_local); tried again as ab13"
 },
 "t061": {
  "theorems": [],
  "note": "survives: first counted as killed by a theorem whose file needs more than the time limit without any edit; changes nothing: files are put in rising order of their first coordinates and the coordinates within a file rise, so the second test never decides (argued on paper, no lemma)"
 },
 "t071": {
  "theorems": [
   "c86_sources"
  ],
  "note": "survives: first counted as killed by a theorem whose file needs more than the time limit without any edit; c86_sources added, retested as ad01"
 },
 "a188": {
  "theorems": [],
  "note": "survives: first counted as killed by a theorem whose file needs more than the time limit without any edit; the examples may have run out of time as well; only the kind of an exception changes, which no property names here"
 },
 "a113": {
  "theorems": [],
  "note": "survives: first counted as killed by a theorem whose file needs more than the time limit without any edit; only the kind of an exception changes, which no property names here"
 },
 "a083": {
  "theorems": [],
  "note": "survives: first counted as killed by a theorem whose file needs more than the time limit without any edit; the examples may have run out of time as well; only the kind of an exception changes, which no property names here"
 },
 "a090": {
  "theorems": [],
  "note": "survives: first counted as killed by a theorem whose file needs more than the time limit without any edit; the examples may have run out of time as well; only the kind of an exception changes, which no property names here"
 },
 "a110": {
  "theorems": [],
  "note": "survives: first counted as killed by a theorem whose file needs more than the time limit without any edit; the examples may have run out of time as well; only the kind of an exception changes, which no property names here"
 },
 "a120": {
  "theorems": [],
  "note": "survives: first counted as killed by a theorem whose file needs more than the time limit without any edit; only the kind of an exception changes, which no property names here"
 },
 "a203": {
  "theorems": [],
  "note": "survives: first counted as killed by a theorem whose file needs more than the time limit without any edit; only the kind of an exception changes, which no property names here"
 },
 "a114": {
  "theorems": [],
  "note": "survives: first counted as killed by a theorem whose file needs more than the time limit without any edit; only the kind of an exception changes, which no property names here"
 },
 "a011": {
  "theorems": [],
  "note": "survives: first counted as killed by a theorem whose file needs more than the time limit without any edit; only the kind of an exception changes, which no property names here"
 },
 "a103": {
  "theorems": [],
  "note": "survives: first counted as killed by a theorem whose file needs more than the time limit without any edit; the examples may have run out of time as well; only the kind of an exception changes, which no property names here"
 },
 "va02": {
  "theorems": [],
  "note": "survives: first counted as killed by a theorem whose file needs more than the time limit without any edit; left as it is: the refusal is a simplification of the model (header of M_mfnc.v), and no property is about files whose variables differ"
 },
 "ad00": {
  "theorems": [],
  "note": "means the same as the original, and proves. With the first proof script of c86_sources this edit failed as well, so that all seven were run again with a script that does not depend on the wording of the definition. ad00 to ad05 were run by hand against c86_sources only."
 },
 "ad06": {
  "theorems": [],
  "note": "not settled: a lemma of P_mfnc.v failed first, the theorems were not reached"
 }
}