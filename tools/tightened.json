{
 "s11": {
  "note": "wrong label: the edit breaks C01/C02, whose theorems failed; C03 is not about this function"
 },
 "g11": {
  "tightened": [
   "C16_ordering_independent_of_insertion"
  ],
  "note": "the theorems of C16 were restated; see the rerun of g11 below"
 },
 "d16": {
  "tightened": [
   "C66",
   "C67"
  ],
  "note": "the edited definition was replaced by the model of whole JSON documents; see the rerun in mutants3"
 },
 "o11": {
  "tightened": [
   "C66_without_cims"
  ],
  "note": "new theorem added after this attempt; see the rerun if any"
 },
 "b2": {
  "tightened": [
   "C02_node_id_positions",
   "C66_index_positions"
  ]
 },
 "g20": {
  "tightened": [
   "C02_graph_lookups"
  ]
 },
 "c6": {
  "note": "wrong label: the edit concerns the CIM of one configuration, caught by C10, C11 and C16"
 },
 "d21": {
  "note": "wrong label: caught by C16"
 },
 "d24": {
  "tightened": [
   "C46_prior_flag",
   "C46_prior_flag_import"
  ]
 },
 "e14": {
  "note": "wrong label: C33 is about the search itself, the estimator's wiring is C39, which failed"
 },
 "e15": {
  "tightened": [
   "C40_before_estimation"
  ]
 },
 "e17": {
  "note": "wrong label: C57, C34, C33 are about the search itself, the estimator's wiring is C39, which failed"
 },
 "e18": {
  "note": "wrong label: C29 is about the score itself, the estimator's wiring is C39, which failed"
 },
 "n22": {
  "note": "wrong label: caught by C48"
 },
 "a14": {
  "note": "wrong label: caught by C52"
 },
 "a16": {
  "note": "wrong label: caught by C51"
 },
 "e8": {
  "tightened": [
   "C39_optimizer_choice"
  ]
 },
 "t35": {
  "tightened": [
   "C19_any_cardinalities"
  ]
 },
 "l7": {
  "tightened": [
   "C71_initialise_again"
  ]
 },
 "v2": {
  "tightened": [
   "C10_residence_times"
  ]
 },
 "v7": {
  "tightened": [
   "C80_header",
   "C80_own_header"
  ]
 },
 "v10": {
  "tightened": [
   "C43_number_of_rows"
  ]
 },
 "v21": {
  "note": "wrong label: caught by C05 (lemmas of the graph invariant); see the rerun"
 },
 "v1": {
  "note": "Qcsum is also the vocabulary of the specification; caught by C12, C13, C15"
 },
 "v5": {
  "note": "caught by C16 and C46"
 },
 "v6": {
  "note": "caught by C16 and C46"
 },
 "v8": {
  "note": "caught by C16"
 },
 "v11": {
  "note": "caught by C16, C64, C65"
 },
 "v19": {
  "note": "caught by C55, C66, C67"
 },
 "v41": {
  "note": "caught by C04"
 },
 "w20": {
  "tightened": [
   "C78_unreadable_file"
  ],
  "note": "new theorem added after this attempt; the rerun w20r fails it"
 },
 "y22": {
  "tightened": [],
  "note": "C87 stays true of this program (without transitions the theta part vanishes); see z1 for the same edit against C35, C36 and C88"
 },
 "y24": {
  "tightened": [],
  "note": "C86 is about every statistical test, so its bounds stay true; caught by five theorems of C87"
 },
 "aa1": {
  "tightened": [
   "C33_whole_call_failures"
  ],
  "note": "C84 is a wrong label: it models calls through sb_estimate_structure and treats Blocked as the end of the history; the first attempt survived C33, which was tightened; see the rerun"
 },
 "bb6": {
  "note": "wrong label: local optimality is C63, not C64; C28 and C63 cover the tabu loop"
 },
 "bb15": {
  "note": "wrong label: C85 is about intensities, not about marks; C83 covers the marks"
 }
}