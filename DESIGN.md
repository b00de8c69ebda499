# Formal model of PyCTBN in Rocq (Coq 8.16.1)

## 1. Shape of the development (rocq/theories)

| files | content |
|---|---|
| `Base.v` | Python values: exceptions as values (`result`), list and `numpy` helpers |
| `Lib.v`, `LibQc.v` | general list / rational lemmas |
| `Model*.v` | the program, one file per group of source files; every definition cites file and lines of /repo. No proofs |
| `Spec*.v` | the small independent vocabulary the theorem statements use. No reference to proofs |
| `Proof*.v` | lemmas, invariants, inductions |
| `Props*.v` | the property theorems `Cnn_*`, short proofs that only combine lemmas, `Print Assumptions` for each, and an `Example` showing a concrete case that meets the hypotheses |

`tools/props.py` generates `properties.jsonl`, `tools/manifest.py` generates `MANIFEST.json` from the theorem names
in `Props*.v`, `tools/build.sh` builds, `tools/mutate.py` runs the wrong-program tests of `seeded/`.

Exceptions are constructors of `exn`; a call that would block for ever is the value `Err Blocked`; `while` loops
run on explicit fuel and return `Err OutOfFuel`, which the termination theorems exclude.
Random draws, oracle answers and process schedules are arbitrary functions/streams that the theorems quantify over.

## 2. Trusted base

* **Kernel.** Coq 8.16.1's kernel accepts every proof; no plugin, no `Admitted`, no own axiom, no functor or module type,
  no kernel check switched off.
* **Print Assumptions.** Every property theorem has a `Print Assumptions` line in its `Props*.v` file. There are two groups.
  1. *Closed under the global context* (no axioms): all theorems not about real numbers.
  2. The theorems over the reals (Pearson's statistic, FamScore, the two tests, float64) — section 7 lists every theorem with its axioms —
     rest on the axioms of Coq's standard library of real numbers and nothing else:
     `ClassicalDedekindReals.sig_forall_dec`, `ClassicalDedekindReals.sig_not_dec`,
     `FunctionalExtensionality.functional_extensionality_dep`, and in some of them `Classical_Prop.classic`.
     (Checkers that list opaque module constants also show `Rdefinitions.RbaseSymbolsImpl.*` — the sealed definitions of +, *, < on R —
     and `ssrunder.Under_rel.*`, both from Coq's own distribution.)
* **Libraries.** Flocq (definitions and lemmas on IEEE 754 binary64, no axioms of its own) for C69; otherwise only Coq's standard library (`List`, `ZArith`, `QArith`/`Qcanon`, `Reals`, `String`, `Permutation`, `Lia`, `Lra`, ssreflect's tactic layer where imported by the former).
* **The correspondence model/code** is by reading; it is the part a reader has to check. Section 3 says exactly what is and is not modelled.

## 3. What is modelled, and what is not

Modelled (file: lines → model file):

| source | lines | model |
|---|---|---|
| structure_graph/structure.py | all | `ModelStructure` |
| structure_graph/network_graph.py | all | `ModelGraph` (networkx `DiGraph` as insertion-ordered node and successor tables) |
| structure_graph/set_of_cims.py, conditional_intensity_matrix.py | all | `ModelCims` |
| structure_graph/trajectory.py, sample_path.py | all | `ModelData` |
| structure_graph/network_generator.py | all | `ModelGenerator` |
| structure_graph/trajectory_generator.py | all | `ModelSample`, `ModelMulti` |
| utility/abstract_importer.py, sample_importer.py, json_importer.py | all | `ModelData`, `ModelExport`, `ModelDocument`, `ModelFiles` |
| utility/json_exporter.py, abstract_exporter.py | the document built, its text, the file | `ModelExport`, `ModelDocument`, `ModelFiles` |
| utility/cache.py | all | `ModelCache` |
| estimators/parameters_estimator.py | all | `ModelParams` (`bincount`, `reshape`, broadcasting literally) |
| the same, with IEEE binary64 arithmetic: parameters_estimator.py, conditional_intensity_matrix.py, set_of_cims.py:58-73, abstract_importer.py:84-88 | the numeric part | `ModelFloating` |
| parameters_estimator.py, set_of_cims.py, network_graph.py:52-73,108-115 as objects with histories | the calls and their effects | `ModelLife` |
| estimators/structure_estimator.py | all but `save_plot_estimated_structure_graph` (matplotlib) | `ModelCtpc`, `ModelEstimators`, `ModelFiles` |
| estimators/structure_constraint_based_estimator.py | all | `ModelCtpc`, `ModelIndep` |
| optimizers/constraint_based_optimizer.py | all | `ModelCtpc` |
| estimators/structure_score_based_estimator.py | all but the console output other than precision/recall | `ModelSearch`, `ModelEstimators` |
| optimizers/hill_climbing_search.py, tabu_search.py | all | `ModelSearch` |
| estimators/fam_score_calculator.py | all | `ModelFamScore` |

Not modelled: file system failures and durability below the level of "the text arrives from the front", matplotlib, the operating system's process
machinery (a pool is an arbitrary assignment of tasks to workers plus "results come back in task order"), console output,
pickling, CPU count, and floating point *rounding* except in the estimation of parameters (C69).

Simplifications, each also stated at the definition:
* numbers: exact rationals (`Qc`) for times, CIM entries and counts; reals for log-gamma, square roots and the statistics;
  in `ModelIndep` an extended number type keeps IEEE inf/nan (no signed zeros: every divisor that can vanish is +0). `int32` wrap-around is not modelled.
* `scipy` quantiles and log-gamma are parameters; theorems state the facts they use (signs, reciprocity of F quantiles, functional equation of Γ).
* pandas frames have distinct column names and carry their row index explicitly; NaN is `None`.
* labels are Coq strings (code points below 256); the code uses arbitrary Python strings.
* JSON text: the numbers' notation is a parameter with stated round-trip hypothesis; NaN and infinities have no value; escaped code points above 255 are errors.
* dataset indexes and cardinalities are natural numbers.
* an exception in the middle of `generate_cims` loses the partial state.
* Python sets are duplicate-free lists; the theorems about set-valued results are stated up to membership. Where the code's
  result depends on set iteration order (tabu search's `random.sample` of a set) the draw is an arbitrary stream, so every order is covered.
* `random.sample` of a set raises `TypeError` from Python 3.11 on; the model is of the pinned versions (networkx 2.5, numpy 1.19.4, pandas 1.1.5).

## 4. Plan per property

| id | modelled | how proved |
|----|----------|------------|
| C01–C04 | `Structure` as a record of four lists | induction on lists / on operation histories |
| C05–C07 | networkx `DiGraph`, `NetworkGraph` on top | refinement to a set of edges; canonical sorting |
| C08 | `meshgrid` 'xy' + `.T.reshape` + column swap, literally | closed form of C-order enumeration; iff |
| C09 | boolean mask filtering | list induction |
| C10–C14 | scalar index vectors, `bincount`, `reshape`, broadcast, diagonal fix-up | mixed-radix bijection, sums over partitions, permutation invariance |
| C15 | CIM arithmetic over `Qc` | field identities |
| C16 | importer + sample path + graph + estimator composed | composition |
| C17 | two parallel lists | refinement to first-match association |
| C18 | `itertools.combinations` | induction |
| C19–C26 | `complete_test` with cache and removable matrix threaded as state, literal loops with fuel; the numeric accept/reject is an oracle | invariants on the cache and on the loop state; commutation of states |
| C27 | chi-square statistic over R | algebra |
| C28–C34, C63 | hill climbing and tabu with graph, queue, set, oracle streams; any score into a strict order | loop invariants; certificate from the rejected suffix; round-robin invariant of the tabu queue |
| C35–C36 | FamScore over R with log-gamma as a parameter satisfying the functional equation | induction on counts |
| C37–C41 | graph construction, adjacency matrix, difference, node-link data | list lemmas |
| C42–C46 | pandas frames as named columns with an index | column-wise list lemmas |
| C47–C53 | generators with arbitrary draws | loop invariants |
| C54–C55 | strings, decimal printing, the regular expression `=(\d)` | string induction |
| C56–C57 | the same models, off the usual call path | counter-examples plus general statements |
| C58–C61 | `independence_test` with IEEE special values | case analysis on the extended numbers, closed form of the decision |
| C62 | the whole constraint-based estimator with an arbitrary test oracle | invariant "true parents stay", exhaustiveness of separating sets |
| C64 | the import chain on raw trajectories; equivalence of data sets generated by reordering, clock shift, cutting, redundant observations | residence times and counts as sums over consecutive pairs of observations, invariant under each generator |
| C65 | both whole estimators | simulation: the estimators read the data only through `compute_parameters_for_node` |
| C66 | the whole JSON document as a tree (`ModelDocument`): exporter, importer, `import_sampled_cims` | writing and reading each part are inverse; the import chain is the one of `SampleImporter` |
| C67 | generator, sampler, exporter, importer, sample path composed | composition of C49, C55, C66; shape of the rows for the lost transition |
| C68 | import chain and parameter estimation | every in-range step shows exactly one configuration, state and destination; double sums exchanged |
| C69 | the numeric path clock readings → CIMs in binary64 (Flocq) | integer operations below 2^53 are exact, hence the indexes; each other operation contributes one factor in [1/(1+u), 1+u], u = 2^-53; sums of nonnegative terms keep the factor bound; no overflow or underflow by the bounds |
| C70 | the estimator on an arbitrary integer table (ModelParams as it is) | the index formula of C11/C12 without range hypotheses; np.bincount refuses negatives; reshape refuses a longer result; the sum of a bincount is the sum of its weights |
| C71 | `ModelLife`: graph, estimator and the SetOfCims objects it creates as mutable objects; each call with the state it leaves behind when it raises | invariants over histories: finished objects never change; the graph's edges stay within the labels, hence fast_init is canonical (C07) |
| C72 | no new code; `determined` on the rows | a configuration that occurs has the same statistics with and without the redundant variable, one that does not occur has none (C19); kept parents reject all separating sets among the kept ones (C22) |
| C73 | no new code; `rename_*` maps every record of the model | equivariance of every function by induction / case analysis (`rmap`); a renaming injective on the labels extends to an injective one |
| C74 | no new code; `rescaled` data, FamScore, both estimators | log of a product; the number of transitions of a variable does not depend on the parent set (C68), so all scores of one search shift alike; a simulation lemma for both searches (scores ordered alike ⇒ same decisions, ProofSim); a family of data sets for the finding |
| C75 | no new code; `recoded` data (SpecCoding), parameters, FamScore, tests, both estimators | a permutation of states permutes the sums of every statistic (Permutation lemmas); FamScore and Pearson's statistic are sums over states; the verdict of a test is a statement about all parent assignments (C24/C61), so its boolean is invariant; simulation of the search when tests never mark (ProofCbSim); for the finding the tests are replaced by a shortcut that is proved equal on computed CIMs and the search is evaluated by the kernel |
| C76 | no new code; `determined` (SpecRedundant) for FamScore and the searches | the configurations with the redundant parent are those without it plus ones no row shows, which score 0 (`red_score`); invariant along the logged search path (`path_inv`: an accepted addition is strictly better, so it is not determined by the parents so far); the two findings by simulation with an integer score ranked like FamScore, for every log-gamma |
| C77 | no new code; two sets of test parameters with the same monotone quantile functions (`lower_levels`) | `state_accepts` is monotone in the levels (`accepts_lower`), hence every test (`test_lower`); with C22 an edge new at the lower level was rejected given variables that are not all kept (`lower_adds`); the finding by replacing the tests that occur by a table of their answers and computing the run |
| C78 | `ModelFiles`: json.dump (escapes, separators) and json.load (scanner, fuel = twice the length of the text) character by character, open/read/write of whole files; a file system is a function from paths to contents; numbers through a `number_format` | the scanner is sound and complete for the grammar of `SpecFiles` by induction on fuel resp. derivations; dumping yields a derivation; composed with C66 and C41 |
| C79 | the same, with the list of all intermediate states of a write (emptied, every prefix of the text) and histories of calls | a strict prefix of an array or object that were a JSON text would, by completeness with the remainder as rest, contradict the reading of the whole; induction over histories |
| C80 | import_data with header_column on the DataFrame model; data with the columns picked by a list of positions | assoc_col agrees on the named columns through every step of the import; the counts of a row depend only on the columns read; permuted parents permute le_enum; for the score-based search, a stream of draws with the same picks is built step by step (simulation in both directions) |
| C81 | the whole constraint-based estimator; the algorithm itself is written separately (`SpecAlgorithm.v`) over an oracle of test answers | simulation of the optimizer's loops (candidate list, removable matrix, cache) by the oracle program; the oracle is shown to give the answers of the single tests |
| C82 | data with columns picked in order; both estimators | the oracle of the smaller data agrees with that of the larger on the kept variables (same CIMs, same order of configurations); in round 0 the dropped candidates disappear without changing anything else |
| C83 | a list of calls of estimate_structure on one constraint-based estimator (sequential or in a pool), the estimator record carrying the removable matrix, the cache and the graph from call to call | the matrix is the only part of the state that changes the answer (`same_estimate`); a pool call does not change it; every sequential call only clears entries (`keeps`), so the number of open pairs decreases whenever the answer can change (`open_less`) |
| C84 | `ModelShared`: a SamplePath and a list of estimator objects that refer to it; constructors and calls as requests, with the state after a call that raises | simulation between the shared history and the history of one object alone (`simulates`: same Structure up to its edges, same object); invariants on the objects (`comes_from`, `shows`); `serve_all_struct` for the shared Structure; parameters by C10-C13's exact CIMs at the state reached. Not followed: a sequential constraint-based call that raises, a search that never ends |
| C85 | no new code; the chain import - fast_init - compute_parameters_for_node (`learned`) | the exact entry of the CIM by C16's chain (`entry_is`), then field arithmetic over Qc; counts and times are additive over trajectories (`net_app`, `spent_app`); likelihood over R by ln z <= z - 1 |
| C86 | no new code; the optimizer of C19-C26 run with a test procedure that also keeps a log (`noting`, `watch`), shown not to change the result (`C86_watching`) | invariants of the loops on the log (`log_round`, `log_outer`) for arbitrary tests that only take removability away; counting by NoDup + inclusion in the list of all questions; the cache keys are the estimations (`estimated_keys`) |
| C87 | no new code; C68's count of observed changes against FamScore (C36) and the rule of thumb of the test (C19) | without transitions FamScore is a sum of -(alpha+1) ln((tau+T)/tau) over configurations and states (`still_score`); a further parent splits every T into k parts (`ext_times`) and ln((tau+T)/tau) is subadditive (`ln_sub_sum`), so the score cannot rise; with C28 (strictly better or equal) and C30 the search returns the known parents. Constraint-based: the diagonal of any CIM of v is at most the number of observed changes (`diagonal_le`), so the rule of thumb fails at every configuration (`few_verdict`); missing edges via C22 |
| C88 | no new code; FamScore on `copies n rs` (C85), tabu search (C63), the whole estimator (C33) | `ProofAsymp`: lg(x+1) - lg(x) = ln x gives lg(n m + a) - lg(a) as a sum of logarithms, bounded above and below up to O(ln n); a cell of FamScore on n copies is n (m ln(m/T) - m) + O(ln n) with the coefficient of ln n known; the log-sum inequality (strict iff some rate differs) decides the linear term, the number of visited cells the logarithmic one (`case_depends`, `case_independent`), and unvisited cells contribute nothing (`case_constant`). One N for all variables and parent sets (finitely many); `tabu_enough`: each accepted move strictly improves, so a run accepts at most 2^c - 1 moves and c 2^c iterations contain a full cycle of rejections; `estimate_optimal` lifts to estimate_structure; `best`: adding missing members and dropping the others climbs to the unique optimum |
| C89 | no new code; the F and chi-square tests (C58/C59) on `copies n rs` (C85), the search (C60/C81) | a CIM entry on n copies is (nM+1)/(nT+1), within O(1/n) of M/T, so the ratio of exit rates is within O(1/n) of 1 if the rates agree and bounded away from 1 if not (`ratio_close`, `ratio_far`); the F quantiles are assumed to tend to 1 more slowly than 1/n (`quantiles_settle`, hypothesis about scipy: true of the F distribution, whose quantiles are 1 + z sqrt(2/d1+2/d2) + O(1/n), for 0 < alpha < 1); the chi-square statistic is n times a limit which is 0 iff the transition probabilities agree (`pearson_eventually`); the rule of thumb is passed once n is large if every transition is seen (`settled`). One N for all variables and sets (finitely many); `cb_search_result` reads the result off the characterisation of the search by its answers (C60), exact recovery off C62's argument |
| C90 | no new code; as C89 without the assumption that every transition is seen | `SpecVisible`: `visible` (leaving rates differ, or destinations differ from a state all of whose successors are reached) and `silent` (v never changes in some combination of states of K, observed or not). The chi-square statistic of a state with an unreached successor is nan or not compared (C58), so only leaving rates count there; the rule of thumb fails for every n iff some combination is silent (0 n = 0) and passes for large n otherwise. `verdict_settles`: each verdict is constant from some n on; finitely many (v, p, K), so one N; `cb_settles`: the search is a function of the verdicts. `run_result_seen`: as C89 with the third verdict |
| C91 | no new code; the loops of both searches (C28-C34) with two sets of limits | simultaneous induction on the two loops (`hill_more`, `tabu_more`: the shorter log is a prefix); scores from C28 and determinism of `improving`; `propose_limit`: all parent sets met lie within known parents and candidates, `queue_short`: the tabu queue never holds all candidates when a candidate is added |
| C92 | no new code; the CTPC algorithm over test answers (C81) with two sets of protected candidates | `rounds_more`: protecting a candidate that survives anyway changes neither the kept list of a round nor (up to survivors) the protected set; induction on rounds and on the candidates of a round. Restart: C28 with the result as known edges. The finding is computed on eight trajectories |
| C93 | `ModelAlias`: a heap of list objects (labels, edges), Structure objects holding references to them and NetworkGraph objects holding a reference to their Structure; the calls of structure.py and network_graph.py statement by statement, including what is left behind when np.delete raises; the object-creating part of complete_test and of NetworkGenerator.generate_graph as sequences of such calls | exact effect of each call on every object (frame lemmas over `struct_at`/`graph_at`), induction over histories for the isolation theorems; the view of the object the call is made on equals the functional model used everywhere else, which justifies that model's treatment of structures as values |
| C94 | two estimators on the same data that differ in `e_threshold` only | the verdict of a test under the higher threshold equals the one under the lower or is (False, mark), by induction over the compared pairs; whole estimates through the C81 algorithm (it asks about unprotected candidates only) and the kept/removed characterisation of C22; witness by computation |
| C95 | the import chain of C16 on frames with arbitrary `fr_index` (one label per row); `drop_tail` drops by label as `DataFrame.drop` does | the processed frame is the default-label one with rows selected by a mask; selection commutes with concatenation and to_numpy; counting for the converse |
| C96 | the import chain of C16 for arbitrary distinct names (`assign_col` overwrites an existing column, `concat_select` may select a column twice) | the column function of each processed column by look-up through the fold of assignments; converse by the data set whose only step goes from all 0 to all 1 |
| C97 | the import chain of C16 on frames that `hold` a trajectory (own relation: default row labels, Time first, the variables' columns anywhere, cells with the right integer part) | the columns of each processed frame by name (look-up in the fold of assignments), then `concat_select` by name; refusals by the missing look-up |
| C98 | the import chain, parameters and estimator as in C16/C25 for two declarations of the same data | the CIMs in terms of the raw observations (C64), sums over surplus states vanish by the range condition; the tests agree on all pairs of CIMs that occur because every row has an unseen cell (C58), lifted by the simulation lemma of C75 |
| C99 | FamScore and the import chain as in C39/C98 for two declarations of the same data; destinations' part of a visit history as in SpecFamScore | both scores by the theorem of C39 as log marginal likelihoods; histories of configurations with surplus states are empty (range of the data); the product of the destinations' predictive probabilities is monotone in the prior weight, strictly once a visit ends, with ratio at most (k'-1)/(k-1) per destination; every change in the data belongs to at most one configuration and state |

No property is declared inexpressible. Distributional claims (C51) are stated for each individual draw.
Process schedules (C25, C39, C53) are modelled as arbitrary assignments/permutations of tasks.

## 5. Findings (deviations of the code from its documentation, each proved in the model)

* C08/C12/C52: parents whose first two cardinalities differ permute the configuration table; with mixed cardinalities parameters
  are attributed to wrong configurations and sampling raises `IndexError`.
* C15/C60: the diagonal of an estimated CIM is (1−m)/(t+1), not −(m+1)/(t+1): rows do not sum to 0, and a single transition makes the F test reject.
* C26, C57: re-running the estimators on the same object does not repeat the result.
* C30: with `max_parents` known edges can be evicted. C33: `max_parents=0`, `tabu_length=0`, no candidate ⇒ exceptions or a blocked call.
* C38: `spurious_edges` returns something else than documented.
* C41: see the theorem for what is lost. C44: column name pitfalls of the importers.
* C47/C48: density type errors; off-diagonal rates are not in [min, max].
* C51: dwell times are drawn with the rate as the scale. C53: forked workers repeat the same random numbers.
* C54/C55: two-digit states and edgeless networks do not survive export/import.
* C56: cache not keyed by the child. C58: unseen destinations disable the chi-square test.
* C70: out-of-range states are booked on other configurations silently. C71: a graph initialised for another node is not noticed.
* C72: the learned structure depends on the order of the columns when variables are redundant.
* C74: the constraint-based result depends on the unit of the clocks. C75: for three or more states it depends on how the states are numbered.
* C76: the score-based searches keep a redundant parent that was tried first (result depends on the draws), and with max_parents a variable that never changes can replace a known parent.
* C77: lowering the significance level can add an edge (it replaces W -> X by U -> X on data of three binary variables), although every single test only becomes more willing to accept.
* C79: out_file and save_results truncate the existing file before writing: a crash leaves a file that cannot be read, the previous content is lost.
* C80 (no defect): parameters, scores and single tests do not depend on the order or choice of other columns; only the constraint-based search (C72) does.
* C83 (consequence of C26): repeated sequential calls settle after at most N(N-1) changes; calls in a pool never change anything; only protections for lack of data cause it.
* C84: estimate_structure erases the known edges of the SamplePath's shared structure: later precision/recall, spurious_edges and parameters (learned without parents) of every object on it are affected.
* C85: estimated CIMs are pulled towards the all-ones matrix (not towards a generator): unvisited states get 1 also on the diagonal, a state left once gets diagonal 0.
* C87 (finding): with three or more states the constraint-based estimator reports every other variable as a parent of a variable that changes fewer than threshold (k-1)^2 k times (300 for three states and the default threshold 25), even of one that never changes; the score-based estimator reports none for the latter. With two states the rule of thumb is not applied.
* C88 (no defect): with default iterations (40) the thorough-search condition c 2^c <= iterations holds for up to four variables; for more, iterations_number has to be raised (or the certificate of C63 checked).
* C89 (finding): a parent that has no effect on its own (v changes iff two others differ) is removed by the first, unconditional test and never reported by the constraint-based estimator, however much data there are; this is a limit of the algorithm, not of the implementation.
* C90 (findings): with three or more states, combinations of parent states that never occur (or in which v never changes) make the conditional tests give up and protect the edge: a variable that only correlates with the true parent stays reported however much data there are. A dependence that only concerns where v goes, from a state with a successor that never occurs, is invisible to both steps of the test.
* C92 (finding): a known edge that would not be found (Y -> X) can make the constraint-based estimator drop an edge it did find (W -> X): the known parent enters the separating sets, given which the data are too few to reject.
* C93: `Structure.remove_node` deletes the label in place from the list object it was given but replaces the two arrays: another Structure made from the same list (all graphs of one `NetworkGenerator` are) keeps arrays that no longer match its labels, and reads the wrong column and cardinality for every later label. `NetworkGraph.remove_node` on one of two graphs over the same Structure makes the other raise `KeyError` for the children of the removed node.
* C94 (finding): raising thumb_threshold can lose an edge (Z -> X replaced by W -> X in five short trajectories): a candidate kept because a test gave up enters the separating sets.
* C95 (finding): the last row is removed by its index label, so every earlier row with the same label goes too, silently; frames whose rows share one label are refused with RuntimeError.
* C96 (finding): a variable named like another one plus "S" has its current states silently overwritten by the other's next states.
* C97: states that are not whole numbers are truncated toward zero without a warning (1.75 is state 1, -0.5 state 0); columns the first frame lacks are ignored silently, missing ones raise KeyError.
* C98: one declared state that never occurs in every variable switches the chi-square test off for all tests (0/0 = nan, never above the quantile), so only the exit rates are compared; surplus states also get intensities 1/(T+1).
* C99 (no defect): surplus declared states only weaken the prior of each destination; every score of a node that moves drops, and nothing else changes.
* C81/C82 (no defect): protection by a test that gave up takes effect from the next size of separating sets on; within one size the remaining sets are still tried.
* C63: hill climbing may stop by patience although an untried change improves the score.

## 6. Wrong programs

`seeded/mutants*.py` describe edits of the model; `tools/mutate.py` applies each one in a scratch copy, replaces every proof that breaks by
`Admitted` and reports which property theorems then depend on a broken proof. `seeded/LOG.jsonl` has one line per attempt.

## 7. Print Assumptions, theorem by theorem

Standard-library axioms only; generated from the compiled files.

<!-- assumptions:begin (tools/assumptions.py) -->

*Closed under the global context* (339 theorems):
`C01_remove_node`, `C01_remove_sequence`, `C02_after_removal`, `C02_graph_lookups`, `C02_graph_lookups_after_removal`, `C02_graph_positions_refuted`, `C02_lookups_agree`, `C02_node_id_positions`, `C02_roundtrip_refuted`, `C03_congruence_refuted`, `C03_eq_is_equivalence`, `C03_eq_meaning`, `C04_edge_list_is_a_multiset`, `C04_remove_edge_outcome`, `C05_edge_set_refinement`, `C06_order_independent`, `C06_ordered_parents`, `C07_fast_init_after_removal`, `C07_fast_init_idempotent`, `C08_rows_are_configurations`, `C08_table_iff`, `C08_table_size`, `C08_unequal_cardinalities_refuted`, `C09_filtering`, `C10_residence_times`, `C11_transition_counts`, `C12_index_agrees_iff`, `C12_raises_refuted`, `C12_residence_times_correct_iff`, `C12_silently_wrong_refuted`, `C13_time_conserved`, `C14_row_order_irrelevant`, `C15_coefficients`, `C15_not_a_generator_refuted`, `C15_row_sum`, `C16_end_to_end`, `C17_cache_is_a_first_write_wins_map`, `C17_every_history_has_a_last_segment`, `C18_separating_sets`, `C19_any_cardinalities`, `C19_independence_test_pairs`, `C19_warm_cache_same_answer`, `C20_cache_never_crashes_the_search`, `C21_optimize_structure_terminates`, `C21_round_bound`, `C21_search_terminates`, `C22_kept_and_removed_are_justified`, `C23_known_edges_are_kept`, `C24_estimation_succeeds`, `C24_results_are_well_formed`, `C25_any_worker_schedule`, `C25_modes_agree`, `C26_marks_are_never_undone`, `C26_pool_is_repeatable`, `C26_sequential_rerun_differs`, `C27_estimated_cims_qualify`, `C28_hill_climbing_moves`, `C28_hill_climbing_never_worse`, `C28_tabu_search_moves`, `C28_tabu_search_never_worse`, `C29_hill_climbing_max_parents`, `C29_tabu_search_max_parents`, `C30_hill_climbing_keeps_known_edges`, `C30_known_edge_evicted`, `C30_known_edge_evicted_tabu`, `C30_tabu_search_keeps_known_edges`, `C31_hill_climbing_edges`, `C31_tabu_search_edges`, `C32_hill_climbing_stops`, `C32_tabu_search_stops`, `C33_estimate_structure_returns`, `C33_hill_climbing_fails_only_with_IndexError`, `C33_hill_climbing_max_parents_zero`, `C33_hill_climbing_no_candidate`, `C33_hill_climbing_returns`, `C33_no_candidate_blocks`, `C33_no_candidate_raises`, `C33_scores_computable`, `C33_tabu_search_duration_zero`, `C33_tabu_search_failures`, `C33_tabu_search_length_zero_blocks`, `C33_tabu_search_max_parents_zero`, `C33_tabu_search_no_candidate_blocks`, `C33_tabu_search_returns`, `C33_whole_call_failures`, `C34_no_KeyError`, `C34_tabu_list`, `C36_no_configuration_fails`, `C37_adjacency_constraint_based`, `C37_adjacency_matrix`, `C37_adjacency_matrix_raises`, `C37_adjacency_score_based`, `C38_lists_missing_edges`, `C38_never_spurious_constraint_based`, `C38_never_spurious_score_based`, `C38_new_estimator`, `C39_edges_of_the_structure`, `C39_known_edges_kept`, `C39_max_parents`, `C39_new_estimator`, `C39_optimizer_choice`, `C39_parents_of_each_node`, `C39_pool_then_sequential`, `C39_precision_recall`, `C39_second_call_prints_an_error`, `C39_sequential_then_pool`, `C39_union_of_searches`, `C40_before_estimation`, `C40_initial_graph`, `C40_prior_matrix`, `C41_read_back`, `C41_saved_results_constraint_based`, `C41_saved_results_score_based`, `C42_row_delta`, `C43_concatenation`, `C43_number_of_rows`, `C44_first_column_differenced`, `C44_other_time_key_raises`, `C44_shifted_column_overwrites`, `C45_accepts_iff`, `C45_not_imported_accepted_refuted`, `C45_trajectories_consumed`, `C46_build_structure`, `C46_prior_flag`, `C46_prior_flag_import`, `C47_fixed_count`, `C47_fixed_int_density_refuted`, `C47_fixed_not_integer`, `C47_no_self_loops`, `C47_random_bad_density`, `C47_random_edges`, `C48_documented_range_refuted`, `C48_generated_cims`, `C48_no_graph_no_cims`, `C48_row`, `C49_generated_networks_can_be_sampled`, `C49_number_of_rows`, `C49_trajectory_shape`, `C50_end_time_terminates`, `C50_no_limits_never_returns`, `C50_no_limits_runs_forever`, `C50_result_independent_of_fuel`, `C50_time_limit`, `C50_transition_limit`, `C50_zero_draws_never_end`, `C51_first_event`, `C51_race`, `C51_scale_is_not_rate`, `C52_mixed_cardinalities_refuted`, `C52_positions_distinct`, `C52_selected_cim`, `C53_crashed_workers`, `C53_duplicated_randomness`, `C53_every_order_possible`, `C53_max_trs`, `C53_no_deadlock`, `C53_one_result_per_request`, `C53_requests`, `C53_return_is_final`, `C53_second_call_repeats`, `C54_keys_distinct`, `C54_leading_digit_unique`, `C54_no_parents`, `C54_read_back_as_leading_digits`, `C55_large_states_one_parent`, `C55_large_states_refuted`, `C55_no_edges_refuted`, `C55_reload_is_exact`, `C55_same_cim_for_every_configuration`, `C55_same_trajectories`, `C56_cache_is_not_keyed_by_child`, `C56_stale_answer_witness`, `C57_max_parents_exceeded`, `C57_structure_edges_always_returned`, `C62_binary_variables`, `C62_exact_recovery`, `C62_one_variable`, `C63_hill_climbing_certificate`, `C63_hill_climbing_may_stop_short`, `C63_tabu_search_certificate`, `C63_tabu_search_early_stop`, `C63_tabu_search_enough_iterations`, `C63_tabu_search_locally_optimal`, `C63_tabu_search_round_robin`, `C64_additive`, `C64_import_succeeds`, `C64_same_parameters`, `C64_time_unit`, `C65_row_order_constraint_based`, `C65_row_order_score_based`, `C65_same_structure_constraint_based`, `C65_same_structure_score_based`, `C66_empty_first_trajectory_refuted`, `C66_empty_trajectory_refuted`, `C66_index`, `C66_index_out_of_range`, `C66_index_positions`, `C66_missing_samples`, `C66_no_trajectories_refuted`, `C66_round_trip`, `C66_sampled_cims`, `C66_with_cims`, `C66_without_cims`, `C67_full_cycle`, `C67_last_transition_lost`, `C68_every_change_counted_once`, `C70_bad_states_unnoticed_refuted`, `C70_in_range_data_never_refused_iff`, `C70_no_parents`, `C70_one_parent`, `C70_parameters_of_any_data`, `C70_time_conserved`, `C71_any_history`, `C71_fast_init_needed`, `C71_graph_first`, `C71_initialise_again`, `C71_results_never_change`, `C71_returned_once`, `C71_second_compute`, `C71_wrong_node_unnoticed_refuted`, `C72_binary`, `C72_column_order_matters_refuted`, `C72_constants_and_copies`, `C72_redundant_never_kept`, `C73_constraint_based`, `C73_new_names`, `C73_parameters`, `C73_reports`, `C73_score_based`, `C74_intensities_keep_no_unit`, `C75_parameters`, `C78_dump_load`, `C78_exported_file`, `C78_file_round_trip`, `C78_no_confusion`, `C78_reader`, `C78_saved_structure`, `C78_unreadable_file`, `C79_cut_text`, `C79_exception_first`, `C79_histories`, `C79_interrupted_write`, `C79_not_atomic_refuted`, `C80_empty_header`, `C80_header`, `C80_own_header`, `C80_unknown_column`, `C81_algorithm`, `C81_every_call`, `C82_unrelated`, `C83_binary`, `C83_few_changes`, `C83_no_call_raises`, `C83_pool_leaves_no_trace`, `C83_protected_for_lack_of_data`, `C83_settles`, `C84_always_answers`, `C84_constraint_based_alone`, `C84_isolation`, `C84_latest_answer`, `C84_parameters`, `C84_score_based_memoryless`, `C84_scores_printed_once`, `C84_spurious_edges_empty`, `C84_structure_erased`, `C85_converges`, `C85_copies`, `C85_enough_data`, `C85_error`, `C85_learned`, `C85_never_seen`, `C85_signs`, `C85_two_data_sets`, `C85_weighted_average`, `C86_after_small_tests`, `C86_at_least`, `C86_at_most`, `C86_estimations`, `C86_parents`, `C86_parents_tested`, `C86_protected_untested`, `C86_questions`, `C86_run`, `C86_separated_gone`, `C86_small_first`, `C86_sparse`, `C86_watching`, `C86_worst_case`, `C87_all_reported`, `C87_missing_edge`, `C87_test_gives_up`, `C87_three_states`, `C90_dependence_is_visible`, `C91_estimate_structure_without_effect`, `C91_hill_climbing_goes_on`, `C91_max_parents_without_effect`, `C91_patience_without_effect`, `C91_tabu_length_without_effect`, `C91_tabu_search_goes_on`, `C92_another_known_edge_refuted`, `C92_hill_climbing_again`, `C92_known_edges_it_would_find`, `C92_result_given_back`, `C92_tabu_search_again`, `C93_edge_calls`, `C93_generated_graphs_refuted`, `C93_graph_calls`, `C93_graph_remove_node`, `C93_graphs_are_separate`, `C93_lost_label`, `C93_remove_node`, `C93_second_graph_on_the_same_structure`, `C93_structures_are_separate`, `C93_tests_touch_nothing_else`, `C94_a_higher_threshold_can_lose_an_edge`, `C94_gives_up_more`, `C94_high_threshold`, `C94_lost_edge`, `C94_no_effect`, `C94_no_effect_when_off`, `C94_single_test`, `C94_switched_off`, `C94_switched_off_repeatable`, `C94_two_variables`, `C95_constant_label_refused`, `C95_distinct_labels`, `C95_exact_data`, `C95_labels_irrelevant_iff`, `C95_lost_steps`, `C96_exact_data`, `C96_good_names`, `C96_looks_predicted`, `C96_right_iff_no_clash`, `C97_missing_variable`, `C97_only_the_trajectories_matter`, `C97_plain_holds`, `C97_same_as_plain`, `C97_time_name`, `C98_parameters`.

*Classical_Prop.classic* (1 theorems):
`C90_visible_is_dependence`.

*ClassicalDedekindReals.sig_forall_dec, FunctionalExtensionality.functional_extensionality_dep* (5 theorems):
`C27_statistic_nonnegative`, `C35_binary_dirichlet_part_is_zero`, `C35_statistics_come_from_histories`, `C60_single_transition`, `C69_signs`.

*ClassicalDedekindReals.sig_forall_dec, ClassicalDedekindReals.sig_not_dec, FunctionalExtensionality.functional_extensionality_dep* (35 theorems):
`C27_proportional_rows_never_reject`, `C27_statistic_is_Pearsons`, `C27_statistic_symmetric`, `C27_statistic_zero_iff_proportional`, `C58_no_exits_disable_both_steps`, `C58_opposite_rows_pass`, `C58_unseen_destination_disables`, `C59_binary_decision_is_the_exponential_test`, `C59_chi_square_never_rejects_for_binary_variables`, `C60_equal_rates_rejected`, `C61_identical_cims_pass`, `C61_independence_test_on_data`, `C61_order_of_the_cims_irrelevant`, `C61_pairs_that_pass`, `C62_on_the_data`, `C62_one_test_on_the_data`, `C72_the_tests_qualify`, `C74_constraint_based_depends_on_the_unit`, `C75_constraint_based`, `C75_constraint_based_depends_on_the_coding`, `C75_single_test`, `C77_a_lower_level_can_add_an_edge`, `C77_edges_added_by_a_lower_level`, `C77_separated_stays_separated`, `C77_single_test`, `C77_two_variables`, `C80_single_test`, `C82_constant_variables`, `C87_binary`, `C89_tests_decide_dependence`, `C90_answer_settles`, `C98_a_rejection_is_lost`, `C98_chi_square_switched_off`, `C98_one_state_too_many`, `C98_only_exit_rates_count`.

*ClassicalDedekindReals.sig_forall_dec, ClassicalDedekindReals.sig_not_dec, Classical_Prop.classic, FunctionalExtensionality.functional_extensionality_dep* (46 theorems):
`C28_hill_climbing_fam_score`, `C28_tabu_search_fam_score`, `C33_fam_scores_computable`, `C33_score_based_returns`, `C35_fam_score_is_log_marginal_likelihood`, `C35_score_of_data`, `C36_order_of_configurations_irrelevant`, `C36_several_states_never_fail`, `C36_single_state_fails`, `C69_agrees_with_exact`, `C69_exactness_refuted`, `C69_float_parameters`, `C74_score_based`, `C74_score_shift`, `C75_score_based`, `C76_constant_replaces_known_parent_refuted`, `C76_found_first_stays_refuted`, `C76_one_of_two_copies`, `C76_redundant_never_reported`, `C76_score_unchanged`, `C80_parameters`, `C80_score_based`, `C85_likelihood`, `C87_score_based`, `C87_score_never_rises`, `C88_constant_neutral`, `C88_dependence_pays`, `C88_exact_network`, `C88_exact_recovery`, `C88_independence_costs`, `C88_search_result`, `C88_unique_best`, `C89_estimators_agree`, `C89_exact_network`, `C89_exact_recovery`, `C89_invisible_alone`, `C89_search_result`, `C90_blind_spot`, `C90_exact_recovery`, `C90_search_result`, `C90_silence_adds_parents`, `C90_what_tests_answer`, `C99_clear_winners_stay`, `C99_drop_is_bounded`, `C99_score`, `C99_score_drops`.

<!-- assumptions:end -->
