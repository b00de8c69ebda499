#!/usr/bin/env python3
"""Source of properties.jsonl: run `python3 tools/props.py > properties.jsonl`."""
import json
SG="PyCTBN/PyCTBN/structure_graph/"; ES="PyCTBN/PyCTBN/estimators/"; OP="PyCTBN/PyCTBN/optimizers/"; UT="PyCTBN/PyCTBN/utility/"
P=[]
def p(title, statement, quantifier, why, anchors):
    P.append(dict(id="C%02d"%(len(P)+1), title=title, statement=statement, quantifier=quantifier, why_tests_cant=why, anchors=anchors))

# ---- Structure
p("Removing a node from a Structure keeps everything else intact",
  "Structure.remove_node(n) on a structure that contains n deletes exactly that label; every other label keeps its dataset index and its cardinality, the relative order of labels is unchanged, exactly the edges that mention n disappear (the others keep their order), and total_variables_number does not change. If n is not a label the call raises ValueError and nothing changes.",
  "every structure with aligned label/index/cardinality arrays and distinct labels, every node, every sequence of removals",
  "needs every array length, every position and every edge list, and every removal sequence",
  [SG+"structure.py:Structure.remove_node", SG+"structure.py:Structure.get_node_indx", SG+"structure.py:Structure.get_states_number"])
p("Label, dataset index and position look-ups agree",
  "For a structure whose dataset indexes are 0..n-1, get_node_id(get_node_indx(l)) = l for every label and get_node_indx equals the positional index. After a removal the round trip is no longer valid: get_node_id interprets its argument as a position, so there are structures reachable by one remove_node on which get_node_id(get_node_indx(l)) returns another label or raises IndexError (finding).",
  "every label of every structure; every structure obtained by remove_node",
  "quantifies over all structures and all removal histories",
  [SG+"structure.py:Structure.get_node_id", SG+"structure.py:Structure.get_node_indx", SG+"structure.py:Structure.get_positional_node_indx"])
p("Structure equality is an equivalence but not a congruence",
  "Structure.__eq__ is reflexive, symmetric and transitive; equal structures have the same label set, the same index array, the same cardinality array and the same edge list. It ignores label order, so two structures can compare equal while get_states_number/get_node_indx of the same label differ (finding).",
  "all pairs and triples of structures",
  "equivalence laws range over all triples of structures",
  [SG+"structure.py:Structure.__eq__"])
p("Structure edge list behaves as a multiset",
  "After any sequence of add_edge / remove_edge / clean_structure_edges, contains_edge(e) holds iff the number of add_edge(e) since the last clean (plus initial occurrences) exceeds the number of successful remove_edge(e); remove_edge of an edge that is not contained raises ValueError and changes nothing.",
  "every initial edge list and every finite history of the three operations",
  "needs all operation histories",
  [SG+"structure.py:Structure.add_edge", SG+"structure.py:Structure.remove_edge", SG+"structure.py:Structure.contains_edge", SG+"structure.py:Structure.clean_structure_edges"])
# ---- NetworkGraph
p("NetworkGraph edge operations implement a set of edges",
  "After any sequence of add_edges, remove_edges, add_nodes and successful remove_node calls, has_edge(e) is true iff e belongs to the mathematical set obtained by performing the same unions/differences; edges lists each such edge exactly once; get_parents_by_id(v) lists exactly the sources of edges into v, each once.",
  "every finite history of graph operations and every edge",
  "needs all histories, including re-adding and removing absent edges",
  [SG+"network_graph.py:NetworkGraph.add_edges", SG+"network_graph.py:NetworkGraph.remove_edges", SG+"network_graph.py:NetworkGraph.remove_node", SG+"network_graph.py:NetworkGraph.has_edge", SG+"network_graph.py:NetworkGraph.get_parents_by_id", SG+"network_graph.py:NetworkGraph.edges"])
p("The ordered parent set depends only on the edge set",
  "get_ordered_by_indx_set_of_parents(v) returns the parents of v in the order of the structure's labels, with the dataset index and the cardinality of each parent at the same position; the result does not depend on the order in which edges were inserted or removed and re-inserted.",
  "every graph history whose nodes were added from a well-formed structure, every node",
  "needs all insertion orders",
  [SG+"network_graph.py:NetworkGraph.get_ordered_by_indx_set_of_parents"])
p("fast_init is idempotent and survives node removal",
  "Calling fast_init(v) twice yields the same indexing/filtering structures as calling it once; removing a parent q of v with remove_node(q) and calling fast_init(v) again yields exactly the structures obtained by building a fresh graph from the structure without q.",
  "every well-formed structure, every node, every removed node",
  "needs all structures; the constraint-based test relies on it at every separating set",
  [SG+"network_graph.py:NetworkGraph.fast_init", SG+"network_graph.py:NetworkGraph.remove_node", ES+"structure_constraint_based_estimator.py:StructureConstraintBasedEstimator.complete_test"])
p("Parent configuration table is the CIM order exactly when the first two parents have equal cardinality",
  "build_p_comb_structure_for_a_node(cards) has prod(cards) rows. Row k is the configuration whose CIM is stored at position k, for every k (so every configuration occurs exactly once), if and only if there are fewer than two parents or the first two cardinalities are equal (all cardinalities being positive). With unequal first cardinalities some legal configuration is missing and some illegal one is present (finding).",
  "every list of positive cardinalities of any length",
  "needs every number of parents and every combination of cardinalities; existing tests only use tables built by the same code",
  [SG+"network_graph.py:NetworkGraph.build_p_comb_structure_for_a_node"])
p("CIM filtering selects exactly the matching parent configurations",
  "SetOfCims.filter_cims_with_mask(mask, comb) with at least two mask entries returns, in order, exactly the CIMs whose stored parent configuration agrees with comb on the masked parents; with zero or one mask entries it returns all CIMs.",
  "every table of configurations, mask and configuration",
  "all masks over all table sizes",
  [SG+"set_of_cims.py:SetOfCims.filter_cims_with_mask"])
# ---- Parameter estimation
p("State residence times are exact for equal cardinalities",
  "When the node and all its parents have the same cardinality c, the residence time stored for parent configuration u and state x is the sum of the time deltas of exactly the rows in which the node is in state x and the parents are in configuration u.",
  "every trajectory data set of any length whose states are in range, every node, every parent set of any size, every c >= 1",
  "needs all data sets, all parent-set sizes and all cardinalities",
  [ES+"parameters_estimator.py:ParametersEstimator.compute_state_res_time_for_node", SG+"network_graph.py:NetworkGraph.build_time_scalar_indexing_structure_for_a_node", SG+"network_graph.py:NetworkGraph.build_time_columns_filtering_for_a_node"])
p("Transition counts are exact for equal cardinalities",
  "Under the same condition, the off-diagonal count stored for configuration u and states x, x' is the number of rows with parents u, current state x and next state x'; the diagonal entry is the sum of the off-diagonal entries of its row; rows whose next state of the node is negative (end-of-trajectory marker) do not contribute.",
  "every trajectory data set whose current states are in range and next states in range or negative, every node, every parent set, every c >= 1",
  "needs all data sets, all parent-set sizes and all cardinalities",
  [ES+"parameters_estimator.py:ParametersEstimator.compute_state_transitions_for_a_node", SG+"network_graph.py:NetworkGraph.build_transition_scalar_indexing_structure_for_a_node", SG+"network_graph.py:NetworkGraph.build_transition_filtering_for_a_node"])
p("Mixed cardinalities corrupt the sufficient statistics (finding)",
  "For a node and parents with different cardinalities the row index is x + sum u_i*p_1*...*p_i instead of x + sum u_i*c*p_1*...*p_(i-1): the two agree on all in-range rows if and only if every parent with at least two states has the node's cardinality; only then are the residence times right for every data set. There are data sets on which the returned residence times are silently wrong (c=3,p=2) and ones on which estimation raises ValueError (c=2,p=3).",
  "every node cardinality and list of parent cardinalities >= 2; witnesses for both failure modes",
  "existing data sets are uniform-cardinality, so no test exercises it; the iff ranges over all cardinality lists",
  [ES+"parameters_estimator.py:ParametersEstimator.compute_state_res_time_for_node", SG+"network_graph.py:NetworkGraph.build_time_scalar_indexing_structure_for_a_node"])
p("Observed time is conserved",
  "Whenever residence-time estimation returns, whatever the cardinalities, the residence times of all configurations and states add up to the total of the time deltas.",
  "every data set and every cardinality assignment for which the call returns",
  "needs all data sets and cardinalities",
  [ES+"parameters_estimator.py:ParametersEstimator.compute_state_res_time_for_node"])
p("Estimated parameters do not depend on the order of rows or trajectories",
  "Permuting the rows of the processed data set (hence the order of the trajectories) leaves the estimated residence times, transition counts and CIMs unchanged.",
  "every permutation of every data set, every node and parent set",
  "needs all permutations",
  [ES+"parameters_estimator.py:ParametersEstimator.compute_parameters_for_node"])
p("CIM coefficients are the add-one smoothed rates",
  "compute_cim_coefficients gives (M[x,x']+1)/(T[x]+1) off the diagonal and (1-M[x,x])/(T[x]+1) on it, leaving the stored counts and times unchanged. Hence each row of an estimated CIM sums to n/(T[x]+1), never to 0, and the diagonal is positive when no transition was observed: the documented q_xx' = M/T and the generator property (zero row sums) do not hold (finding).",
  "every square count matrix whose diagonal is the off-diagonal row sum and every vector of non-negative residence times",
  "exact identity over all count matrices; the unit test uses a tolerance of 10",
  [SG+"conditional_intensity_matrix.py:ConditionalIntensityMatrix.compute_cim_coefficients", SG+"set_of_cims.py:SetOfCims.build_cims"])
p("End to end: imported trajectories to node parameters",
  "Importing any list of well-formed trajectories, building the sample path and calling compute_parameters_for_node(v) on a graph with equal-cardinality parents returns one CIM per parent configuration, at the configuration's position in the configuration table, whose statistics are the dwell times and jumps of v read directly off the raw trajectories and whose rates are the add-one smoothed ratios of these.",
  "every list of trajectories of any length, every structure, node and parent set with equal cardinalities",
  "composition of importer, sample path, graph and estimator over all inputs",
  [UT+"sample_importer.py:SampleImporter.import_data", SG+"sample_path.py:SamplePath.build_trajectories", ES+"parameters_estimator.py:ParametersEstimator.compute_parameters_for_node"])
# ---- Cache
p("The cache is a first-write-wins map keyed by parent sets",
  "After any sequence of put/clear, find(s) returns the value of the first put since the last clear whose key is equal to s as a set (whatever order or repetition), and None when there is none.",
  "every finite history of put, find and clear",
  "needs all histories and all set representations",
  [UT+"cache.py:Cache.find", UT+"cache.py:Cache.put", UT+"cache.py:Cache.clear"])
# ---- CTPC
p("Separating-set enumeration is complete and exact",
  "generate_possible_sub_sets_of_size(u, k, p) enumerates exactly the k-element sub-lists (in u order) of u without p, each once; raises ValueError when p is not in u.",
  "every duplicate-free candidate list u, every size k, every p",
  "all sizes and all lists",
  [ES+"structure_estimator.py:StructureEstimator.generate_possible_sub_sets_of_size"])
p("The independence test compares exactly the right pairs of CIMs",
  "complete_test(p, c, S) with equal cardinalities is True iff for every configuration s of S and every state t of p the pairwise test accepts (CIM of c given s, CIM of c given s and p=t); after any earlier tests on the same child the answer is the same as with an empty cache, except that the call raises UnboundLocalError exactly when the set S+{p} is cached from earlier tests and S is not (finding).",
  "every data set, test parent, child, separating set and every cache content produced by earlier tests on the same child",
  "needs all cache histories and all separating sets",
  [ES+"structure_constraint_based_estimator.py:StructureConstraintBasedEstimator.complete_test", SG+"set_of_cims.py:SetOfCims.filter_cims_with_mask"])
p("The cache never makes the constraint-based search crash or go stale",
  "Starting from an empty cache, throughout ConstraintBasedOptimizer.optimize_structure every cache hit equals the freshly computed SetOfCims and the 'small' parent set is always cached whenever the 'large' one is, so the code path that would read the unbound variable g2 is never taken; on return the cache is empty.",
  "every data set, node, known-edge matrix and every outcome of the statistical tests",
  "needs an invariant over all interleavings of tests and removals",
  [ES+"structure_constraint_based_estimator.py:StructureConstraintBasedEstimator.complete_test", OP+"constraint_based_optimizer.py:ConstraintBasedOptimizer.optimize_structure", UT+"cache.py:Cache"])
p("The constraint-based search terminates",
  "optimize_structure performs finitely many iterations: the nested while loops finish within |u|+1 outer and |u| inner rounds whatever the tests answer.",
  "every candidate list and every (even state-dependent) test outcome",
  "termination for all oracles",
  [OP+"constraint_based_optimizer.py:ConstraintBasedOptimizer.optimize_structure"])
p("Constraint-based search: kept and removed parents are justified",
  "With deterministic tests, a parent p is removed from node c only if some separating set S of other candidate parents made complete_test(p,c,S) True; and every parent that is still in the result and is removable was tested, with answer False, against every subset of the other remaining parents.",
  "every test function, node and number of variables",
  "needs all oracles and all subset sizes",
  [OP+"constraint_based_optimizer.py:ConstraintBasedOptimizer.optimize_structure"])
p("Known edges are never removed by the constraint-based estimator",
  "Every edge (a,b), a != b, passed as known_edges is in the set returned by StructureConstraintBasedEstimator.estimate_structure.",
  "every known-edge list over the labels, every data set and test outcome",
  "needs all test outcomes",
  [ES+"structure_estimator.py:StructureEstimator.build_removable_edges_matrix", OP+"constraint_based_optimizer.py:ConstraintBasedOptimizer.optimize_structure"])
p("Constraint-based results are well-formed",
  "Every edge returned by estimate_structure goes between two distinct variables of the structure; the edges into a node are exactly what optimize_structure returned for that node.",
  "every data set, known-edge list and test outcome",
  "needs all runs",
  [ES+"structure_constraint_based_estimator.py:StructureConstraintBasedEstimator.ctpc_algorithm"])
p("Sequential and multi-process constraint-based estimation agree",
  "estimate_structure(disable_multiprocessing=True) and the process-pool version return the same edge set for every way of distributing the nodes over worker processes: the state shared in the sequential run (cache, removable-edge matrix) never influences another node.",
  "every data set, known-edge list, threshold and schedule",
  "needs all schedules and all shared-state histories",
  [ES+"structure_constraint_based_estimator.py:StructureConstraintBasedEstimator.ctpc_algorithm", ES+"structure_constraint_based_estimator.py:StructureConstraintBasedEstimator.independence_test"])
p("Re-running the constraint-based estimator is not idempotent (finding)",
  "A pair (parent, child) that once fails the sample-size rule of thumb is marked non-removable in the estimator object for good; marks are never undone. A second sequential estimate_structure on the same estimator can therefore return an edge that the first one removed, whereas the multi-process version (which discards the workers' copies) is repeatable.",
  "every run for the monotonicity of marks; a witness run for the difference",
  "needs the history of the estimator object",
  [ES+"structure_constraint_based_estimator.py:StructureConstraintBasedEstimator.independence_test"])
p("Proportional transition counts never reject independence in the chi-square step",
  "For a state that both CIMs leave and whose destinations have all been seen by one of them, the chi-square statistic used by independence_test is Pearson's statistic of the 2-row contingency table of destinations; it is non-negative, symmetric under swapping the two CIMs, and 0 exactly when the two off-diagonal rows are proportional. Proportional rows never reject in the chi-square step.",
  "all pairs of estimated CIMs and states; all quantile functions that are positive for positive degrees of freedom and nan for 0",
  "identity over all real-valued rows",
  [ES+"structure_constraint_based_estimator.py:StructureConstraintBasedEstimator.independence_test"])
# ---- Score based
p("Score-based search never returns a worse structure",
  "The parent set returned by HillClimbing and by TabuSearch has a score at least as good as the initial (known-edges) parent set, strictly better whenever it differs as an edge set, and every intermediate accepted structure strictly improves on the previous one.",
  "every score function into a strict order, every sequence of random choices, every parameter setting",
  "needs all random choices and score functions",
  [OP+"hill_climbing_search.py:HillClimbing.optimize_structure", OP+"tabu_search.py:TabuSearch.optimize_structure"])
p("Score-based search respects max_parents",
  "If the known parents do not exceed max_parents (>= 1), the node never has more than max_parents parents in the returned structure.",
  "every score function and every sequence of random choices",
  "needs all random choices",
  [OP+"hill_climbing_search.py:HillClimbing.optimize_structure", OP+"tabu_search.py:TabuSearch.optimize_structure"])
p("Known edges survive score-based search without max_parents, but not with it",
  "With max_parents=None every known edge into the node is in the returned structure. With max_parents set, a known edge can be evicted by the random choice of the parent to drop (finding, with witness).",
  "every score function and sequence of random choices; witness for the violation",
  "needs all random choices",
  [OP+"hill_climbing_search.py:HillClimbing.optimize_structure", OP+"tabu_search.py:TabuSearch.optimize_structure"])
p("Score-based search returns only edges into the node",
  "When the structure's own edge list is empty (as estimate_structure ensures), every returned edge points into the node being optimised, comes from a different variable of the structure (unless a self-loop was given as known edge), and no edge is repeated.",
  "every run",
  "needs all runs",
  [OP+"hill_climbing_search.py:HillClimbing.optimize_structure", OP+"tabu_search.py:TabuSearch.optimize_structure", ES+"structure_score_based_estimator.py:StructureScoreBasedEstimator.estimate_structure"])
p("Iterations and patience bound the search",
  "Hill climbing and tabu search evaluate at most iterations_number candidate structures; with patience p they stop right after p+1 consecutive rejected candidates and never before.",
  "every score function, sequence of random choices, iterations_number and patience",
  "needs all runs",
  [OP+"hill_climbing_search.py:HillClimbing.optimize_structure", OP+"tabu_search.py:TabuSearch.optimize_structure"])
p("When score-based search fails to return",
  "With at least one iteration, HillClimbing raises IndexError when there is no candidate parent, or when max_parents=0 and there is a candidate but no known parent; TabuSearch blocks forever on an empty queue when there is no candidate parent or tabu_length is 0, raises ZeroDivisionError for tabu_rules_duration=0 and IndexError when max_parents=0 and there is no known parent. If scores are computable (as they are on legal data with equal cardinalities) these parameter values are the only ones with which they can fail, and only with these outcomes; in all other cases they return, and so does estimate_structure for the whole network, in both modes. When searches do fail, a sequential call fails as the first failing search does (later ones are not made), while in the pool one search that hangs makes the whole call hang even if an earlier one raised, and otherwise the exception of the first failing search is raised; so a variable without candidate parents makes a pooled tabu call hang whatever the other parameters, and a hill-climbing call raise IndexError in both modes.",
  "every parameter setting and sequence of random choices",
  "a hang cannot be observed by a unit test; needs all runs",
  [OP+"hill_climbing_search.py:HillClimbing.optimize_structure", OP+"tabu_search.py:TabuSearch.optimize_structure"])
p("Tabu list consistency and effect",
  "Throughout TabuSearch the tabu queue and the tabu set hold the same nodes without repetition and at most tabu_length of them, so removing from the set never raises KeyError; a node on the tabu list is never the next candidate unless every candidate is tabu, in which case the oldest one is used.",
  "every run",
  "needs all interleavings of expiry, eviction and choice",
  [OP+"tabu_search.py:TabuSearch.optimize_structure"])
p("FamScore is the log marginal likelihood",
  "get_fam_score is the sum over parent configurations and states of the log of the gamma-exponential marginal likelihood of the residence times and of the log of the Dirichlet-multinomial marginal likelihood of the transitions; the latter equals the log of the product of sequential predictive probabilities. For binary variables the Dirichlet part is 0.",
  "all transition counts, residence times and positive hyper-parameters; any log-gamma satisfying its functional equation",
  "identity over all counts",
  [ES+"fam_score_calculator.py:FamScoreCalculator"])
p("FamScore does not depend on the order of parent configurations and fails for one-state variables",
  "get_fam_score is invariant under permutation of the CIMs; for a variable with a single state the computation raises ZeroDivisionError.",
  "all CIM sets and permutations",
  "all permutations",
  [ES+"fam_score_calculator.py:FamScoreCalculator.get_fam_score"])
# ---- estimator results
p("Adjacency matrix agrees with the returned edges",
  "After estimate_structure, adjacency_matrix()[i][j] is True iff (nodes[i], nodes[j]) is in the returned edge set, also when some variables are isolated.",
  "every estimation result",
  "all graphs, including ones with isolated nodes",
  [ES+"structure_estimator.py:StructureEstimator.adjacency_matrix"])
p("spurious_edges is not what it says",
  "After any estimate_structure call (either estimator) spurious_edges() returns the empty list whatever was estimated, because the call erases the structure's edges; before it, with a prior structure and equal node sets it returns the prior edges that are missing from the current graph, not the spurious ones - on a new estimator only prior self-loops (finding).",
  "every prior structure and estimation result",
  "needs the history of the shared structure object",
  [ES+"structure_estimator.py:StructureEstimator.spurious_edges", SG+"structure.py:Structure.clean_structure_edges"])
p("Score-based estimation is the union of independent per-node searches",
  "estimate_structure returns exactly the union of estimate_parents over the nodes, in both process modes, and leaves a graph with exactly these edges; the printed precision and recall are |true and found|/|found| and |true and found|/|true|, or a division error when either set is empty - always so on a second call, because the first one erases the true edges (finding).",
  "every per-node result and true structure",
  "all schedules and edge sets",
  [ES+"structure_score_based_estimator.py:StructureScoreBasedEstimator.estimate_structure"])
p("Initial graph and prior matrix",
  "The estimator starts from the complete directed graph without self-loops; the removable-edge matrix is False exactly at the known edges; a known edge with an unknown label raises ValueError.",
  "every label list and known-edge list",
  "all sizes",
  [ES+"structure_estimator.py:StructureEstimator.build_complete_graph", ES+"structure_estimator.py:StructureEstimator.build_removable_edges_matrix"])
p("Saved results can be read back",
  "The node-link data written by save_results determines the estimated graph: reading it back yields the same nodes and the same edges. Only variables with at least one edge are written (finding: isolated variables are lost).",
  "every estimated graph",
  "all graphs",
  [ES+"structure_estimator.py:StructureEstimator.save_results"])
# ---- importer
p("Row deltas and shifted columns",
  "compute_row_delta_sigle_samples_frame on a frame with n rows returns n-1 rows; row i holds the time difference between rows i+1 and i, the states of row i and, in the shifted columns, the states of row i+1. The caller's frame is unchanged.",
  "every frame with a unique index, any number of rows and columns, no label equal to another label plus 'S'",
  "all lengths and column counts",
  [UT+"abstract_importer.py:AbstractImporter.compute_row_delta_sigle_samples_frame"])
p("Concatenation never creates transitions between trajectories",
  "compute_row_delta_in_all_samples_frames yields the per-trajectory rows one after the other: sum of (n_i - 1) rows, no row mixes two trajectories, and the deltas add up to the sum of the trajectory durations.",
  "every list of well-formed trajectories",
  "all numbers and lengths of trajectories",
  [UT+"abstract_importer.py:AbstractImporter.compute_row_delta_in_all_samples_frames"])
p("Importer column naming pitfalls (findings)",
  "The time column must be called 'Time' and be the first column: with another time_key the import raises KeyError, with 'Time' in another position the wrong column is differenced. If one variable's label is another's label plus 'S', the shifted column overwrites the original data.",
  "every time key different from 'Time'; witness frames",
  "needs arbitrary column names",
  [UT+"abstract_importer.py:AbstractImporter.compute_row_delta_in_all_samples_frames", UT+"json_importer.py:JsonImporter.build_sorter"])
p("SamplePath life cycle",
  "SamplePath refuses an importer without variables or with an empty processed frame (RuntimeError); after build_trajectories the processed frame is empty, so building again yields an empty trajectory and a second SamplePath on the importer raises RuntimeError. A SampleImporter whose import_data was never called is accepted (finding).",
  "every importer state and every sequence of the calls",
  "needs all call sequences",
  [SG+"sample_path.py:SamplePath.__init__", SG+"sample_path.py:SamplePath.build_trajectories", UT+"abstract_importer.py:AbstractImporter.clear_concatenated_frame"])
p("build_structure checks the variable order",
  "build_structure raises RuntimeError iff the data columns and the variables frame list the labels in different order; otherwise the structure pairs each label with its row's index and cardinality, and its edges are the prior structure rows.",
  "every variables frame, column order and prior structure",
  "all frames",
  [SG+"sample_path.py:SamplePath.build_structure"])
# ---- generators
p("Generated graphs",
  "generate_graph never creates self-loops or repeated edges, whatever the random draws; with fixed=True and density d it creates exactly d*n*(n-1) edges when that number is an integer in range and raises RuntimeError when it is not an integer.",
  "every label list, density and random draws",
  "all random outcomes",
  [SG+"network_generator.py:NetworkGenerator.generate_graph"])
p("Generated CIMs",
  "generate_cims creates prod(parent cardinalities) CIMs per node; before rounding each row sums to 0, has a diagonal in [-max,-min] and non-negative off-diagonal entries; rounding to 4 digits changes each row sum by at most n/20000. Off-diagonal entries need not lie in [min,max] although documented (finding).",
  "every range, cardinality and random draws with positive off-diagonal sum",
  "all random outcomes",
  [SG+"network_generator.py:NetworkGenerator.generate_cims"])
p("Shape of generated trajectories",
  "CTBN_Sample(max_tr=n) returns n+1 rows; the first row is all zeros at time 0 (when n>0), the last row is all -1; between consecutive rows other than the last exactly one variable changes; all values are in range; times never decrease.",
  "every network with valid CIMs, every n and every random draw",
  "all random outcomes and lengths",
  [SG+"trajectory_generator.py:TrajectoryGenerator.CTBN_Sample"])
p("Termination of trajectory generation",
  "CTBN_Sample(max_tr=n) terminates after exactly n transitions; with t_end the recorded times never exceed t_end (up to rounding to 4 digits), and it terminates when rates and draws are bounded below (with all-zero draws it does not); called without limits it never returns.",
  "every network and random draw",
  "non-termination is not observable by a test",
  [SG+"trajectory_generator.py:TrajectoryGenerator.CTBN_Sample"])
p("Sampled dwell times use the rate as a scale (finding)",
  "The time until the next event of a variable is rate*E for a standard exponential draw E, i.e. exponential with mean q, while the CTBN semantics requires E/rate (mean 1/q): the two agree only for rate 1. Apart from the scale, a run is the race of the CTBN semantics: at each transition the variable with the smallest scheduled time moves, a variable is rescheduled with a fresh draw exactly when it or one of its parents changes, and the next state is drawn with its off-diagonal rates as weights.",
  "every rate and draw",
  "a distributional error that tolerance-based tests do not detect",
  [SG+"trajectory_generator.py:TrajectoryGenerator.CTBN_Sample"])
p("Sampling uses the CIM of the current parent configuration",
  "With at most one parent, or the first two parents of equal cardinality, the CIM used to sample a variable is the one generated for the current configuration of its parents; when its first two parents have different cardinalities some row of valid states has no CIM and sampling in that row raises IndexError (finding).",
  "every network and parent state",
  "all configurations",
  [SG+"trajectory_generator.py:TrajectoryGenerator.CTBN_Sample", SG+"network_graph.py:NetworkGraph.build_p_comb_structure_for_a_node"])
p("multi_trajectory: count, order and duplicated randomness",
  "In every schedule in which all workers finish, multi_trajectory returns one trajectory per request, in completion order (a permutation of the per-request results). Because every forked worker starts from the parent's random state, requests with equal parameters return identical trajectories (finding).",
  "every schedule, request list and random state",
  "needs all schedules",
  [SG+"trajectory_generator.py:TrajectoryGenerator.multi_trajectory", SG+"trajectory_generator.py:TrajectoryGenerator.worker"])
# ---- exporter
p("Exported parent configurations parse back only for one-digit states",
  "The key written by cims_to_json for a configuration is parsed back by TrajectoryGenerator to the list of leading decimal digits of the states: the configuration itself iff all states are below 10 (labels without '='); with a state >= 10 a wrong configuration is read (finding).",
  "all parent lists and configurations",
  "all strings and numbers",
  [UT+"json_exporter.py:JsonExporter.cims_to_json", SG+"trajectory_generator.py:TrajectoryGenerator.__init__"])
p("Exported CIMs come back at the same configuration",
  "For a generated network with at least one edge, cardinalities at most 10 and no '=' in a label, exporting the CIMs and loading them into a TrajectoryGenerator yields the generator built from the network in memory: for every variable and parent configuration the CIM that was generated for it, and the same trajectories from the same draws. Findings: with two or more parents, one of them in state 10 or above, the reloaded generator finds no CIM (IndexError); a network without edges cannot be loaded (KeyError).",
  "every generated network and configuration",
  "all networks",
  [UT+"json_exporter.py:JsonExporter.cims_to_json", SG+"trajectory_generator.py:TrajectoryGenerator.__init__", SG+"network_generator.py:NetworkGenerator.dyn_str"])
# ---- appended as the model grew
p("The parameter cache is not keyed by the child (finding)",
  "If S+{p} and S are both in the cache, complete_test(p, c, S) answers from the cached parameters whatever the child c is: for a child other than the one the cache was filled for (complete_test called directly, or after an optimize_structure that raised) the answer is that of the first child; there are data where it differs from the right one.",
  "every estimator, cache content and pair of children; a witness for the wrong answer",
  "needs all cache contents and call orders",
  [ES+"structure_constraint_based_estimator.py:StructureConstraintBasedEstimator.complete_test", UT+"cache.py:Cache.find"])
p("estimate_parents on a structure that still has edges (finding)",
  "Called directly (not through estimate_structure, which first erases the edges), estimate_parents returns every edge of the sample path's structure, whatever the scores, the node and the optimizer: edges into other nodes are returned and max_parents can be exceeded.",
  "every structure, node, parameter set, data set, score and random draws; a witness for max_parents",
  "needs all search histories",
  [ES+"structure_score_based_estimator.py:StructureScoreBasedEstimator.estimate_parents", SG+"network_graph.py:NetworkGraph.fast_init"])
p("An unseen destination switches the chi-square test off (finding)",
  "If neither CIM has seen some destination of a state, the chi-square statistic of that state is nan and the state never rejects independence, whatever the other counts (witness: from one state, all 30 transitions of one CIM go to a second state and all 30 of the other to a third). A state that one of the CIMs never leaves is never a reason to reject, in either test.",
  "all pairs of estimated CIMs, states, significance levels and quantile functions",
  "needs all count matrices; only special values show it",
  [ES+"structure_constraint_based_estimator.py:StructureConstraintBasedEstimator.independence_test"])
p("For binary variables the chi-square test is vacuous",
  "For a child with two states the chi-square step never rejects: independence is decided by the exponential (F) test alone.",
  "all pairs of estimated CIMs of a binary variable and all significance levels",
  "needs all counts",
  [ES+"structure_constraint_based_estimator.py:StructureConstraintBasedEstimator.independence_test"])
p("A single transition makes the exponential test reject (finding)",
  "Because the diagonal of an estimated CIM is (1 - m)/(t + 1) instead of -(m + 1)/(t + 1), the F statistic of a state left exactly once in one CIM and more than once in the other is 0 or -inf and independence is always rejected, even when the two rates are equal; left exactly once in both it is nan and never rejects.",
  "all pairs of estimated CIMs, states, significance levels in (0,1) and positive quantiles",
  "needs all counts and times",
  [ES+"structure_constraint_based_estimator.py:StructureConstraintBasedEstimator.independence_test", SG+"conditional_intensity_matrix.py:ConditionalIntensityMatrix.compute_cim_coefficients"])
p("Exactly which pairs of CIMs pass independence_test",
  "Once the rule of thumb is met, independence_test returns True iff every state is either never left in one CIM, or (left once in both, or left at least twice in both with the ratio of the smoothed rates between the two F quantiles) and (has an unseen destination or a Pearson statistic not above the chi-square quantile). The answer does not depend on the order of the CIMs, and a CIM tested against itself passes when 1 lies between the quantiles. With C19 this gives the meaning of complete_test on the data.",
  "all pairs of estimated CIMs, data sets, separating sets; all quantile functions with the assumed signs (and reciprocity for the order of the CIMs)",
  "needs all CIMs including the special floating-point values",
  [ES+"structure_constraint_based_estimator.py:StructureConstraintBasedEstimator.independence_test", ES+"structure_constraint_based_estimator.py:StructureConstraintBasedEstimator.complete_test"])
p("Faithful tests make the constraint-based estimator exact",
  "If, for every variable v, the independence tests never separate v from its true parents (whatever the separating set) and separate it from every other variable given exactly the true parents, then estimate_structure returns exactly the true edges, in both modes; for one variable the true parents are always kept, and an additional parent can only come from a known edge or from a test that gave up for lack of data. For binary variables tests never give up, so faithfulness alone suffices when the known edges are true.",
  "every estimator, data set, test outcome assignment, set of true edges and known edges",
  "needs all test outcome assignments and search histories",
  [ES+"structure_constraint_based_estimator.py:StructureConstraintBasedEstimator.estimate_structure", OP+"constraint_based_optimizer.py:ConstraintBasedOptimizer.optimize_structure"])
p("Local optimality at the end of a score-based search",
  "The candidates tried since the last improvement certify the result: no allowed addition or removal of one of them improves the score. In tabu search with the default (or sufficiently large) tabu_length and tabu_rules_duration the candidates are tried in a fixed cyclic order whatever the random draws, so a full cycle without improvement, or an early stop with patience at least (number of candidates - 1), yields a locally optimal parent set; so do c 2^c iterations for c candidates if max_parents is not set. Hill climbing has no such guarantee: a run may stop by patience although an untried change improves the score.",
  "every structure, data set, score, order, random draws and parameters; a witness run for the last sentence",
  "needs all search histories and random draws",
  [OP+"tabu_search.py:TabuSearch.optimize_structure", OP+"hill_climbing_search.py:HillClimbing.optimize_structure"])
p("The parameters depend on the observations only, not on how they are cut up",
  "Importing the same observed process presented differently - trajectories in another order, clocks shifted, a trajectory cut in two at one of its observations, additional observations at which no variable has changed - yields the same structure and, for every node and every parent set, exactly the same conditional intensity matrices, residence times and transition counts. Statistics are additive: importing two data sets together gives, entry by entry, the sum of the residence times and transition counts obtained from each. Multiplying all clock readings by k multiplies the residence times by k and leaves the counts unchanged.",
  "every legal set of raw trajectories and every sequence of such rearrangements; every network, node and parent set whose cardinalities are supported; every k",
  "needs all data sets and all rearrangements; tests compare a few fixed data sets",
  [UT+"abstract_importer.py:AbstractImporter.compute_row_delta_in_all_samples_frames", SG+"sample_path.py:SamplePath.build_trajectories", ES+"parameters_estimator.py:ParametersEstimator.compute_parameters_for_node"])
p("The learned structure depends on the observations only",
  "When all variables have the same number of states, two presentations of the same observed process (as in the previous property) lead both structure estimators to the same set of edges (or the same exception), in both modes, for every test outcome function, score function, known edges, random draws and search parameters. For arbitrary cardinalities the same holds for two processed data sets that differ only in the order of their rows.",
  "every legal set of raw trajectories and rearrangement, every estimator configuration and random draws",
  "needs all data sets, rearrangements, draws and search histories",
  [ES+"structure_constraint_based_estimator.py:StructureConstraintBasedEstimator.estimate_structure", ES+"structure_score_based_estimator.py:StructureScoreBasedEstimator.estimate_structure", UT+"abstract_importer.py:AbstractImporter.compute_row_delta_in_all_samples_frames"])
p("A saved network and its trajectories can be read back",
  "Exporting variables, edges, CIMs and trajectories with JsonExporter and importing the file with JsonImporter under the exporter's keys gives the learner the same structure and trajectory as handing the trajectory DataFrames to SampleImporter, and gives TrajectoryGenerator the same variables, edges and CIMs; import_sampled_cims returns every variable's matrices in order. The element of the outer array named by indx, and nothing else, is read; without an outer array the object itself is read. Findings: a file with no trajectory, or with a trajectory without rows, is written without complaint but cannot be imported (IndexError or ValueError).",
  "every legal set of variables, edges, CIMs and trajectories; every document and index",
  "needs all documents; tests read a few fixed files",
  [UT+"json_exporter.py:JsonExporter.out_file", UT+"json_importer.py:JsonImporter.import_data", UT+"json_importer.py:JsonImporter.import_sampled_cims", SG+"trajectory_generator.py:TrajectoryGenerator.__init__"])
p("Generate, sample, save, load, learn",
  "For every generated network that can be sampled (labels without '=', at most ten states, at least one edge) and all trajectories sampled from it, the saved file can be read back: the reloaded TrajectoryGenerator is the original one, and SamplePath delivers a legal data set with the original labels, cardinalities and edges. Finding: the last transition of every sampled trajectory is lost to the learner, because its destination is overwritten by -1: of n transitions requested, n-1 are counted.",
  "every generated network, all random draws, all limits, any number of trajectories",
  "needs all networks and all random draws",
  [SG+"network_generator.py:NetworkGenerator.generate_cims", SG+"trajectory_generator.py:TrajectoryGenerator.CTBN_Sample", UT+"json_exporter.py:JsonExporter.out_file", UT+"json_importer.py:JsonImporter.import_data", SG+"sample_path.py:SamplePath.build_structure"])
p("Every observed change is counted exactly once",
  "For every node and every parent set with supported cardinalities, the estimated CIMs together count each observed change of the node exactly once off the diagonal and once on the diagonal, and never a change to the end-of-trajectory marker; their residence times sum to the total observed time of the trajectories.",
  "every legal data set, network, node and parent set",
  "needs all data sets",
  [ES+"parameters_estimator.py:ParametersEstimator.compute_parameters_for_node", SG+"sample_path.py:SamplePath.build_trajectories"])
p("Floating point does not spoil the parameters",
  "With float64 arithmetic, the estimated parameters of legal data of n rows whose clocks do not run backwards (total time at most 2^1000, n at most 2^51, c^3 times the number of parent configurations at most 2^53) are: every transition count exactly right, every residence time off by at most (n+1) 2^-52 of its value, every intensity off by at most (n+3) 2^-52 of its value, and never a NaN or an infinity; no observation is attributed to a wrong configuration by the floating-point computation of array indexes, and off-diagonal intensities stay positive. Finding: the sums are not exact - a residence time of 1 plus one of 2^-60 is stored as 1.",
  "every legal data set with float64 clock readings, every network, node and parent set within these bounds",
  "needs all data sets: rounding errors depend on every value and on the order of summation",
  [UT+"abstract_importer.py:AbstractImporter.compute_row_delta_sigle_samples_frame", ES+"parameters_estimator.py:ParametersEstimator.compute_state_res_time_for_node", ES+"parameters_estimator.py:ParametersEstimator.compute_state_transitions_for_a_node", SG+"conditional_intensity_matrix.py:ConditionalIntensityMatrix.compute_cim_coefficients"])
p("What the parameters are when the data are not what was declared",
  "compute_parameters_for_node accepts any table of integers: a row is booked, for its duration and for its transition, on the cell that a fixed linear formula of its entries gives (negative transition cells are ignored), and the call either returns the matrices of all bookings or raises ValueError, the latter exactly when the formula leaves the arrays. No time is lost or invented. Data within the declared states are never refused exactly when the largest cell the cardinalities allow fits (for one parent: when it has no more states than the node). Finding: states beyond the declared cardinality are mostly accepted silently and booked on another parent configuration.",
  "every table of integers, network, node and parent set, every cardinality",
  "needs all tables, including malformed ones",
  [ES+"parameters_estimator.py:ParametersEstimator.compute_parameters_for_node", ES+"parameters_estimator.py:ParametersEstimator.compute_state_res_time_for_node", ES+"parameters_estimator.py:ParametersEstimator.compute_state_transitions_for_a_node"])
p("Life cycle of ParametersEstimator",
  "Whatever calls were made before on a NetworkGraph and the ParametersEstimator using it - in any order, with unknown labels, raising or not, with edges and nodes added and removed in between - graph.fast_init(v), estimator.fast_init(v), estimator.compute_parameters_for_node(v) returns exactly what a new graph with the current edges and a new estimator return (or raises the same exception). A returned SetOfCims is never changed by later calls and never returned a second time; each computation needs its own estimator.fast_init (a second computation raises AttributeError; estimator.fast_init before graph.fast_init - also after a node was removed - raises TypeError, and nothing is computed until graph.fast_init is called again). Finding: when the graph was initialised for another node, nothing is noticed and that node's residence times are returned under the wrong name.",
  "every structure, data set and finite history of calls",
  "needs all histories of calls, including those that raise",
  [ES+"parameters_estimator.py:ParametersEstimator.fast_init", ES+"parameters_estimator.py:ParametersEstimator.compute_parameters_for_node", SG+"network_graph.py:NetworkGraph.fast_init", SG+"set_of_cims.py:SetOfCims.build_cims"])
p("Redundant variables and the order of the columns",
  "If in the data the state of a variable is a function of the states of some variables that the constraint-based estimator reports as parents of v, then it is not itself reported as a parent of v, unless that edge was given as known or a test gave up for lack of data (which cannot happen for binary variables). In particular a variable that never changes is nobody's parent, and of two copies of a variable at most one is a parent. Finding: which copy is reported depends on the order of the columns, for the same data.",
  "every data set, estimator, structure; all tests that accept a matrix against itself and against an empty one (as the code's do)",
  "needs all data sets with such dependences and all search histories",
  [ES+"structure_constraint_based_estimator.py:StructureConstraintBasedEstimator.estimate_structure", OP+"constraint_based_optimizer.py:ConstraintBasedOptimizer.optimize_structure"])
p("The names of the variables do not matter",
  "Renaming the variables (different names for different variables, everything else - columns, cardinalities, data - unchanged) renames the results and nothing else: the parameters of every node are identical, the constraint-based estimator returns the same edges under the new names (in both modes, in the same order) with the same adjacency matrix and spurious edges, the score-based estimator does so given the same random draws; if a call raises, the renamed call raises the same exception.",
  "every structure, data set, known edges, graph, tests, score, draws, search parameters and injective renaming",
  "needs all inputs and all renamings; label comparisons and dictionary look-ups are spread over the whole code",
  [SG+"structure.py:Structure", SG+"network_graph.py:NetworkGraph.fast_init", ES+"structure_constraint_based_estimator.py:StructureConstraintBasedEstimator.estimate_structure", ES+"structure_score_based_estimator.py:StructureScoreBasedEstimator.estimate_structure"])
p("The unit of time",
  "Expressing the clocks in another unit (all readings multiplied by q > 0) together with tau_xu (multiplied by q) lowers every FamScore of a variable by the same amount, ln q per observed transition of that variable; hence the score-based estimator returns the same edges for the same random draws. Finding: nothing else is free of the unit. No off-diagonal intensity is the old one divided by q unless q = 1 (the smoothing adds one unit of time, whatever the unit), and the constraint-based estimator may return no edge in one unit and an edge in another for the same data.",
  "every legal data set of variables with equal cardinalities, every q, hyper-parameters, known edges, draws and search parameters; for the finding, every pair of quantile functions such that 1/3 lies between the quantiles of F(4,2) used",
  "needs all data sets, units and search histories",
  [ES+"fam_score_calculator.py:FamScoreCalculator.get_fam_score", ES+"structure_score_based_estimator.py:StructureScoreBasedEstimator.estimate_structure", SG+"conditional_intensity_matrix.py:ConditionalIntensityMatrix.compute_cim_coefficients", ES+"structure_constraint_based_estimator.py:StructureConstraintBasedEstimator.independence_test"])
p("The coding of the states",
  "Numbering the states of the variables differently (a permutation of each variable's states, applied to the whole data set) renumbers the rows and columns of the estimated matrices and the parent configurations, and changes nothing else: residence times, counts and intensities are the same numbers. The score-based estimator returns the same edges for the same draws, and every single independence test gives the same answer. For variables with at most two states, or a threshold of at most 0, the constraint-based estimator returns the same edges. Finding: otherwise it need not. A failing test that stops at a configuration with too little data also marks the edge as not removable, and which configuration is met first depends on the numbering; there are data of five three-state variables where interchanging two names of states decides whether an edge is returned.",
  "every legal data set, every permutation of each variable's states, every network, node, parent set, hyper-parameters, known edges, draws, threshold, and quantile functions",
  "needs all data sets, permutations and search histories",
  [ES+"parameters_estimator.py:ParametersEstimator.compute_parameters_for_node", ES+"fam_score_calculator.py:FamScoreCalculator.get_fam_score", ES+"structure_score_based_estimator.py:StructureScoreBasedEstimator.estimate_structure", ES+"structure_constraint_based_estimator.py:StructureConstraintBasedEstimator.complete_test"])
p("Redundant variables and the score-based estimator",
  "A further parent whose state is, in the data, a function of the states of the node's other parents leaves its FamScore exactly unchanged. Hence, when max_parents is not given, a variable that is a function of known parents of v (a variable that never changes, if there are none) is not reported as a parent of v unless its edge is known, and of two variables that determine each other at most one is reported unless both are known: for both optimizers, all settings and all random draws. Findings: (1) a redundant variable that happens to be tried before the variable it is a function of stays, since dropping it is no strict improvement: the draws decide whether {W} or {U, W} is returned although U is a function of W. (2) with max_parents a variable that never changes can take the place of a known parent.",
  "every data set of variables with equal cardinalities, known edges, hyper-parameters, log-gamma function, optimizer settings and draws",
  "needs all data sets with such dependences and all search histories",
  [ES+"fam_score_calculator.py:FamScoreCalculator.get_fam_score", ES+"structure_score_based_estimator.py:StructureScoreBasedEstimator.estimate_structure", OP+"hill_climbing_search.py:HillClimbing.optimize_structure", OP+"tabu_search.py:TabuSearch.optimize_structure"])
p("The significance levels",
  "Lowering the significance levels makes every single independence test at least as willing to accept: a test that accepts independence still does. For binary variables a variable that some test separates from v given variables that are all reported as parents of v is not reported itself, whatever lower level is used (unless its edge is known), and with two variables a lower level never adds an edge. Finding: with three or more variables it can. There are data of three binary variables for which lowering the level of the F test from 0.1 to 0.05 replaces the edge W -> X by U -> X; an edge that is new at a lower level is always one that was rejected given variables that are no longer reported.",
  "every data set of variables with equal cardinalities, pair of levels, monotone quantile functions, threshold, known edges and execution mode",
  "needs all data sets, all levels and all search histories",
  [ES+"structure_constraint_based_estimator.py:StructureConstraintBasedEstimator.independence_test", ES+"structure_constraint_based_estimator.py:StructureConstraintBasedEstimator.estimate_structure", OP+"constraint_based_optimizer.py:ConstraintBasedOptimizer.optimize_structure"])
p("The text of the files",
  "What is written is read back. json.load accepts exactly the JSON texts, in any layout, and raises a ValueError on everything else; the text dumped for a document is one line of printable ASCII and is read as the same document, whatever characters the labels contain, so two different documents never have the same text. Hence an importer given the file that out_file wrote gets the document that was exported - the learner the same structure and trajectories as from the DataFrames, the generator the same CIMs - and the file that save_results wrote holds the nodes and edges of the estimated graph. Other files are not touched. A path without a file makes the importer raise FileNotFoundError.",
  "every document, label, exporter, graph, path and previous state of the files; every number format in which the numbers of the document are printed as JSON numbers and read back as the same numbers",
  "needs all documents and all strings",
  [UT+"json_exporter.py:JsonExporter.out_file", UT+"json_importer.py:JsonImporter.read_json_file", ES+"structure_estimator.py:StructureEstimator.save_results"])
p("Interrupted writing",
  "No interruption of the program makes it read wrong data later. An exporter whose document cannot be built raises before any file is touched. If the program is stopped while out_file or save_results is writing, every other file is as it was and the file itself has its old content, or is rejected with a ValueError, or is complete; after any history of such calls, stopped anywhere, every file holds the last document written to it or its initial content, except possibly the one being written. Finding: writing is not atomic; whatever the file held before, there is a point at which neither the old nor the new document can be read.",
  "every history of out_file and save_results calls, every crash point, every initial state of the files",
  "needs all crash points and histories",
  [UT+"json_exporter.py:JsonExporter.out_file", UT+"json_importer.py:JsonImporter.read_json_file", ES+"structure_estimator.py:StructureEstimator.save_results"])
p("The order and the choice of the columns",
  "import_data with header_column imports exactly the named columns in the order in which they are named, and nothing else in the DataFrames plays a part: the structure and trajectories are those of the DataFrames that contain only these columns. Naming all the columns is the same as naming none; a name that is no column is a KeyError, an empty list a RuntimeError. For any selection and order of the columns, the estimated matrix of every joint state of a node's parents, the FamScore and the answer of every independence test are the same as from the whole data, as long as the variables involved are selected. With the columns in another order the score-based estimator can return exactly the same sets of edges (for suitable draws). (The constraint-based estimator need not: see C72.)",
  "every legal data set, every selection and order of its columns, every network, node, separating set, hyper-parameters, known edges and draws",
  "needs all data sets, column orders and search histories",
  [UT+"sample_importer.py:SampleImporter.import_data", UT+"abstract_importer.py:AbstractImporter.compute_row_delta_in_all_samples_frames", ES+"parameters_estimator.py:ParametersEstimator.compute_parameters_for_node", ES+"fam_score_calculator.py:FamScoreCalculator.get_fam_score", ES+"structure_score_based_estimator.py:StructureScoreBasedEstimator.estimate_structure"])

p("The algorithm is CTPC",
  "The constraint-based estimator is the CTPC algorithm, run independently for every variable on nothing but the answers of the single tests: start from all other variables; for separating sets of 0, 1, 2, ... members, while there are more candidates than that, go through the candidates in the order of the columns, skip the protected ones, and try all sets of other current candidates in order until one separates the candidate from the variable; then drop it. Known edges are protected, and so is from the next size on every candidate one of whose tests gave up for lack of data. The edges into v are exactly the candidates left, in every execution mode. On later calls of the same estimator the same algorithm is run, but what the earlier sequential calls protected stays protected (calls in a pool of processes leave no protection behind).",
  "every data set of variables with equal cardinalities, every statistical test, threshold, known edges and history of calls in any execution modes",
  "needs all data sets, all histories of calls and all possible sequences of test answers",
  [ES+"structure_constraint_based_estimator.py:StructureConstraintBasedEstimator.estimate_structure", OP+"constraint_based_optimizer.py:ConstraintBasedOptimizer.optimize_structure", ES+"structure_constraint_based_estimator.py:StructureConstraintBasedEstimator.complete_test"])
p("Variables that play no part",
  "If every variable outside a selection of the columns passes the first test against v (without separating set) and no known edge leads from it to v, then the constraint-based estimator returns the same edges into v from the selected columns (in the same order) as from all the data. In particular, columns of binary data that never change can be dropped: the edges among the other variables stay what they are.",
  "every legal data set of variables with equal cardinalities, selection of columns, statistical test, threshold, known edges and pair of execution modes",
  "needs all data sets, all selections and all sequences of test answers",
  [ES+"structure_constraint_based_estimator.py:StructureConstraintBasedEstimator.estimate_structure", OP+"constraint_based_optimizer.py:ConstraintBasedOptimizer.optimize_structure", UT+"abstract_importer.py:AbstractImporter.compute_row_delta_in_all_samples_frames"])
p("Calling the constraint-based estimator again",
  "estimate_structure can be called any number of times, in any modes, on one estimator, and never raises. A call in a pool of processes leaves no trace: the next call returns the same edges. A sequential call can change the answer of later calls (see C26), but only by protecting edges one of whose tests gave up for lack of data, and this comes to an end: with N variables the answer changes at most N(N-1) times over the life of the estimator, and not at all after N(N-1) sequential calls. For binary variables all calls return the same edges.",
  "every estimator over data of variables with equal cardinalities, every statistical test and threshold, every history of calls in any modes",
  "needs all data sets and unbounded histories of calls",
  [ES+"structure_constraint_based_estimator.py:StructureConstraintBasedEstimator.estimate_structure", ES+"structure_constraint_based_estimator.py:StructureConstraintBasedEstimator.complete_test", OP+"constraint_based_optimizer.py:ConstraintBasedOptimizer.optimize_structure"])
p("Several estimators on one SamplePath",
  "Estimators built on the same SamplePath do not influence each other: whatever calls are interleaved, every object returns the same edges, matrices and saved graphs as if the other objects did not exist. A score-based estimator has no memory (with the same random numbers a call returns the same edges, in a pool or not); adjacency_matrix and save_results always show the last successful estimate of that object, also after calls that raised. But estimate_structure has a side effect on the SamplePath (findings): the first call, even one that raises, erases the known edges of the shared structure. From then on precision and recall cannot be computed, spurious_edges is empty for every object, and parameters learned through NetworkGraph(sample_path.structure) ignore all parents: one CIM per variable instead of one per configuration of the known parents.",
  "every sample path, every number of constraint-based and score-based estimators, every interleaving of constructions and calls including calls that raise, every parameter and random draw",
  "needs all interleavings of calls on any number of objects",
  [ES+"structure_estimator.py:StructureEstimator", ES+"structure_constraint_based_estimator.py:StructureConstraintBasedEstimator.estimate_structure", ES+"structure_score_based_estimator.py:StructureScoreBasedEstimator.estimate_structure", SG+"sample_path.py:SamplePath", SG+"network_graph.py:NetworkGraph.fast_init", SG+"structure.py:Structure.clean_structure_edges"])
p("Estimated intensities and observed rates",
  "Every entry of an estimated CIM, on the diagonal or not, is the average of the observed rate (transitions per unit of time; on the diagonal minus the rate of leaving) weighted with the time spent in the state, and of the number 1 weighted with one unit of time. Its error is therefore exactly |1 - rate| / (time + 1): it falls below any bound once enough time has been observed, and goes to 0 when the same trajectories are given n times. An off-diagonal entry is the maximum likelihood estimate from the data plus one imaginary transition and one imaginary unit of time, and is positive; two data sets together give an entry that follows from those of each. Findings: a state never visited under a parent configuration gets 1 everywhere, also on the diagonal; a diagonal entry is positive when the state was never left and 0 when it was left once.",
  "every legal list of trajectories with non-decreasing clocks, every variable whose parents have its cardinality, every parent configuration, every pair of states, every number of copies",
  "needs all data sets and limits",
  [ES+"parameters_estimator.py:ParametersEstimator.compute_parameters_for_node", SG+"conditional_intensity_matrix.py:ConditionalIntensityMatrix.compute_cim_coefficients", SG+"set_of_cims.py:SetOfCims.build_cims"])
p("Cost of the constraint-based search",
  "The independence tests performed to find the parents of one variable out of m others: every question (is p separated from v by S) is about distinct variables and is asked at most once, sets are tried by increasing size, a variable once separated occurs in no later test, protected variables are not tested, and the parents returned are exactly the variables no test separated; a parent that is unprotected at the end has been tested against every set of the other parents. Hence there are at most m 2^(m-1) tests, at most m + k 2^(k-1) if the unconditional tests leave k variables, at least k 2^(k-1) if k unprotected parents are found, and exactly m 2^(m-1) if all are. The parameters of a parent set are estimated once, when the first test needs them, so at most 2^m times. A call of estimate_structure on n variables performs at most n (n-1) 2^(n-2) tests, in both modes.",
  "every data set, statistical test, threshold, known edges and state of the estimator",
  "needs all data sets and all possible sequences of test answers; the bounds are for every number of variables",
  [OP+"constraint_based_optimizer.py:ConstraintBasedOptimizer.optimize_structure", ES+"structure_constraint_based_estimator.py:StructureConstraintBasedEstimator.complete_test", ES+"structure_estimator.py:StructureEstimator.generate_possible_sub_sets_of_size", UT+"cache.py:Cache"])
p("Variables with few observed changes",
  "A variable that never changes in the data: adding parents never raises its score, so the score-based estimator (any search, random choices, iterations and patience) returns its known parents and no others, provided max_parents is not set or no edge into it is known; so does the constraint-based estimator if the variables are binary. With k >= 3 states the constraint-based test given a set of b variables gives up (answers dependent and protects the edge) whenever the variable changes fewer than threshold (k-1)^2 k^(b+1) times; a missing edge has therefore been separated by a set small enough for the number of observed changes, and a variable that changes fewer than threshold (k-1)^2 k times (300 times with three states and the default threshold) gets every other variable as a parent, whatever the data and the tests (finding).",
  "every legal data set with non-decreasing clocks of variables with equal cardinalities, every variable of it, every known edges, hyper-parameters, random draws, threshold, statistical test and execution mode",
  "needs all data sets, parent sets and search histories; the score comparison is a statement about real logarithms",
  [ES+"structure_score_based_estimator.py:StructureScoreBasedEstimator.estimate_structure", ES+"fam_score_calculator.py:FamScoreCalculator.get_fam_score", ES+"structure_constraint_based_estimator.py:StructureConstraintBasedEstimator.independence_test", ES+"structure_constraint_based_estimator.py:StructureConstraintBasedEstimator.compute_thumb_value", OP+"hill_climbing_search.py:HillClimbing.optimize_structure", OP+"tabu_search.py:TabuSearch.optimize_structure"])
p("Enough data: what the score says about one more parent and what the search then returns",
  "For a data set repeated often enough (n copies, n at least some N): adding p to the parents K of v raises the score of v if, given the states of K, some observed rate of v depends on the state of p; it lowers the score if no rate depends on p although two of its states can be compared; it leaves the score unchanged, for every n, if no two of its states can be compared. Hence a tabu search that does not give up too early (no max_parents, default or long enough tabu_length, tabu_rules_duration and patience, at least c 2^c iterations for c = number of variables - 1) returns for every variable a parent set given which no other variable makes a difference, and in which every parent that was not known makes a difference given the others (or could not be compared), whatever the random numbers. If the data single out a parent set (as long as a member is missing some member makes a difference, and nothing else does once all are there) it has the strictly highest score of all parent sets and is what the estimator returns; if they do so for every variable, estimate_structure returns exactly that network.",
  "every legal data set with increasing clocks of variables with equal cardinalities (at least 2), every positive tau and alpha, every function satisfying the equation of log gamma, every known edges contained in the network, every random draws and execution mode",
  "an asymptotic statement over all data sets, all parent sets and all histories of the search; no finite number of runs can establish a limit",
  [ES+"fam_score_calculator.py:FamScoreCalculator.get_fam_score", ES+"structure_score_based_estimator.py:StructureScoreBasedEstimator.estimate_structure", OP+"tabu_search.py:TabuSearch.optimize_structure"])
p("Enough data: what the constraint-based estimator returns",
  "For a data set repeated often enough (n copies, n at least some N), of binary variables or of variables all of whose transitions are seen in every situation: every independence test of v against p given K answers True exactly if no observed rate of v depends on the state of p given the states of K, and no test gives up. Hence every variable left out of the parents of v is independent of v given some set of other variables, and every parent reported (and not known before) makes a difference given any set of the other reported parents. If the data are faithful to a parent set (each member makes a difference whatever else is known, nothing else does once all are known) exactly that set is returned; if they are for every variable, estimate_structure returns exactly that network, and the score-based estimator with a thorough tabu search returns the same. But (finding) a variable that makes no difference on its own is never reported however much data there are and whatever difference it makes once other variables are known (e.g. v changes iff two others differ).",
  "every legal data set with increasing clocks of variables with equal cardinalities (at least 2), every threshold, every significance levels and quantile functions such that the F quantiles tend to 1 more slowly than 1/n, every known edges contained in the network, every execution mode",
  "an asymptotic statement over all data sets, all separating sets and all sequences of test answers; no finite number of runs can establish a limit",
  [ES+"structure_constraint_based_estimator.py:StructureConstraintBasedEstimator.independence_test", ES+"structure_constraint_based_estimator.py:StructureConstraintBasedEstimator.complete_test", ES+"structure_constraint_based_estimator.py:StructureConstraintBasedEstimator.estimate_structure", OP+"constraint_based_optimizer.py:ConstraintBasedOptimizer.optimize_structure"])
p("What the constraint-based estimator can and cannot see",
  "For a data set repeated often enough (n copies, n at least some N) and no assumption about which transitions are observed: a test of v against p given K answers True exactly if (a) given K, v leaves no state faster or slower depending on p, and from no state from which all other states are reached it goes to other states at different rates depending on p, and (b) with three or more states, v changes at least once in every combination of states of K; it gives up only if (b) fails. Hence the result of the search settles: estimate_structure returns one and the same set of edges from some amount of data on. What is left out was separated by such a set; what is reported makes a visible difference given every set of the other reported parents for which (b) holds, unless (b) fails somewhere. The parents of v are recovered exactly if they can be seen whatever else is known, nothing else can once they are known, and v changes in every combination of the other variables' states. Findings: a dependence that only concerns where v goes, from states not all of whose successors occur, is never seen however much data there are; with three or more states, combinations of states that do not occur (or in which v does not change) make the tests given those variables give up, so a variable that merely correlates with the true parent is reported for ever.",
  "every legal data set with increasing clocks of variables with equal cardinalities (at least 2), every threshold above 0, every significance levels and quantile functions such that the F quantiles tend to 1 more slowly than 1/n, every prior and known edges, every execution mode",
  "an asymptotic statement over all data sets, all separating sets and all sequences of test answers; no finite number of runs can establish a limit",
  [ES+"structure_constraint_based_estimator.py:StructureConstraintBasedEstimator.independence_test", ES+"structure_constraint_based_estimator.py:StructureConstraintBasedEstimator.complete_test", ES+"structure_constraint_based_estimator.py:StructureConstraintBasedEstimator.compute_thumb_value", OP+"constraint_based_optimizer.py:ConstraintBasedOptimizer.optimize_structure"])
p("The limits of the score-based search",
  "With the same random numbers, a search with more iterations and more patience first does exactly what the shorter search does, step by step, and then possibly goes on; it does not end with a worse score, and if it does return then so does the shorter one. Limits that cannot be reached make no difference at all, to results or failures: a patience not below the number of iterations, a max_parents not below the number of known parents plus candidates, a tabu_length not below the number of candidates; so for a whole call of estimate_structure, in both modes, max_parents and tabu_length not below the number of variables and patience not below iterations_number are as good as None.",
  "every data set, node, known edges, score function with a strict order, parameters and sequence of random numbers",
  "relates two runs for every pair of limits and every random sequence",
  [OP+"hill_climbing_search.py:HillClimbing.optimize_structure", OP+"tabu_search.py:TabuSearch.optimize_structure", ES+"structure_score_based_estimator.py:StructureScoreBasedEstimator.estimate_structure"])
p("Telling the estimators what they would find anyway",
  "Edges that the constraint-based estimator reports can be given to it as known edges, some or all of them: it reports the same edges again, in either mode; in particular its own result given back as known edges is a fixed point. Started again from its own result as known edges, hill climbing or tabu search does not return a worse score, whatever the limits and the random numbers. Finding: a known edge that the constraint-based estimator would not find can make it drop another one that it did find.",
  "every legal data set of variables with equal cardinalities, every statistical test, threshold, known edges and execution mode; for the searches every data set, score function with a strict order, parameters and random numbers",
  "relates two runs for every data set and every set of known edges",
  [OP+"constraint_based_optimizer.py:ConstraintBasedOptimizer.optimize_structure", ES+"structure_estimator.py:StructureEstimator.build_removable_edges_matrix", ES+"structure_constraint_based_estimator.py:StructureConstraintBasedEstimator.estimate_structure", OP+"hill_climbing_search.py:HillClimbing.optimize_structure", OP+"tabu_search.py:TabuSearch.optimize_structure"])
p("Which objects a call on a Structure or a NetworkGraph affects",
  "A Structure keeps references to the list of labels and the list of edges it was given, a NetworkGraph to its Structure. What a structure or graph says is changed only by calls on it, on the Structure it was made with, or - for remove_node, add_edge and remove_edge, which work in place - on a Structure that was given the same list object; clean_structure_edges and all graph calls except remove_node never affect another object. The independence tests of the constraint-based estimator work on objects of their own and leave everything that existed before unchanged. Findings: NetworkGraph.remove_node(n) changes the Structure for every other graph made with it (for instance from sample_path.structure): such a graph then raises KeyError when initialised for a child of n, and for the other nodes is initialised as if n did not exist. Structure.remove_node(n) on one of two structures that share the list of labels leaves the other with one label too few: every label after n gets the dataset index and the cardinality of its predecessor, silently. All graphs made by one NetworkGenerator, and the generator itself, share one list, so removing a node from an earlier graph does this to a later one.",
  "every heap of lists, structures and graphs with any sharing, every history of calls on them (including calls that raise)",
  "needs all sharing patterns and all histories of calls on all objects",
  [SG+"structure.py:Structure.remove_node", SG+"structure.py:Structure.add_edge", SG+"structure.py:Structure.remove_edge", SG+"structure.py:Structure.clean_structure_edges", SG+"network_graph.py:NetworkGraph.remove_node", SG+"network_graph.py:NetworkGraph.fast_init", SG+"network_generator.py:NetworkGenerator.generate_graph", ES+"structure_constraint_based_estimator.py:StructureConstraintBasedEstimator.complete_test"])
p("The threshold of the rule of thumb",
  "Raising thumb_threshold turns the outcome of some single tests into giving up (answering dependent and protecting the edge) and changes no other outcome. For binary variables, and for thresholds that are not positive, no test ever gives up, the threshold has no effect and all calls on the estimator return the same edges; more generally two thresholds give the same edges if no test gives up under the higher one. For three or more states there is a threshold from which on every estimate is the complete graph. With two variables a higher threshold never loses an edge. Finding: with more variables it can (a parent kept for lack of data enters the separating sets); an edge lost that way was separated, under both thresholds, by a set that is not part of the answer for the lower one, or had been kept only because one of its tests gave up.",
  "every legal data set of variables with equal cardinalities, every statistical test, prior and known edges, pair of thresholds and execution mode; a witness for the finding",
  "relates two runs for every data set and every pair of thresholds",
  [ES+"structure_constraint_based_estimator.py:StructureConstraintBasedEstimator.independence_test", ES+"structure_constraint_based_estimator.py:StructureConstraintBasedEstimator.complete_test", ES+"structure_constraint_based_estimator.py:StructureConstraintBasedEstimator.compute_thumb_value", OP+"constraint_based_optimizer.py:ConstraintBasedOptimizer.optimize_structure"])
p("Row labels of the imported DataFrames",
  "Whatever row labels (pandas index) the DataFrames given to SampleImporter carry, the data set learned from holds exactly the pairs of consecutive observations whose first row has a label different from its frame's last row's label. Hence the labels are irrelevant - same structure, same data set, so the same parameters and networks - exactly if no frame's last label occurs twice in that frame, in particular whenever labels are distinct (default numbering, slices of a larger frame, time stamps). Finding: otherwise every earlier row repeating the last label is silently lost with its dwell time and transition (frames glued by concat without ignore_index), and if the rows of each frame all carry one label SamplePath raises RuntimeError.",
  "every list of trajectories in range with every row labels, every variables, cardinalities and prior edges",
  "quantifies over all index labellings of all data sets",
  [UT+"abstract_importer.py:AbstractImporter.compute_row_delta_sigle_samples_frame", UT+"abstract_importer.py:AbstractImporter.compute_row_delta_in_all_samples_frames", UT+"sample_importer.py:SampleImporter.import_data", SG+"sample_path.py:SamplePath.__init__", SG+"sample_path.py:SamplePath.build_trajectories"])
p("Variable names that collide with the importer's column names",
  "Importing trajectories of variables with distinct names, none of them 'Time', never fails because of the names, and the data set is the one the user means - for all data - exactly if no variable is named like another one followed by 'S'. Finding: with such a pair v and vS the import silently shows v's next state as vS's current state (next states and times stay right), so vS always looks as if it predicted v's transitions perfectly.",
  "every list of distinct variable names (any strings), cardinalities, prior edges and trajectories",
  "quantifies over all names and all data sets; the failure is silent",
  [UT+"abstract_importer.py:AbstractImporter.compute_row_delta_sigle_samples_frame", UT+"abstract_importer.py:AbstractImporter.compute_row_delta_in_all_samples_frames", UT+"sample_importer.py:SampleImporter.import_data", SG+"sample_path.py:SamplePath.build_trajectories"])
p("Which parts of the imported DataFrames matter",
  "What SamplePath learns from depends only on the trajectories the DataFrames hold: the order of the columns after Time (from the second frame on; the first frame's header fixes the variables) and any further columns make no difference, and of a state only its integer part, rounded toward zero, is used. A frame that lacks one of the first frame's variables is refused with KeyError, and so are frames without a column called Time. Finding: states that are not whole numbers are truncated silently, so 1.75 and 1 are the same state and -0.5 counts as state 0.",
  "every list of DataFrames holding trajectories in whatever form, every variables, cardinalities and prior edges",
  "quantifies over all data sets and all the frames that represent them",
  [UT+"abstract_importer.py:AbstractImporter.compute_row_delta_sigle_samples_frame", UT+"abstract_importer.py:AbstractImporter.compute_row_delta_in_all_samples_frames", UT+"sample_importer.py:SampleImporter.import_data", UT+"sample_importer.py:SampleImporter.build_sorter", SG+"sample_path.py:SamplePath.build_trajectories"])
p("Declaring states that never occur",
  "Declaring more states for the variables than the data have (all with the same number) leaves the imported data set and, in every situation that can occur, the residence times, counts and intensities unchanged; the intensity of every transition into a surplus state is 1/(T+1), and in situations that cannot occur all counts are 0 and all intensities 1. Finding: if every variable has a declared state in which it is never observed - in particular whenever one state too many is declared - the chi-square test is switched off completely: the constraint-based estimator returns the same edges whatever the level and the quantiles of that test. For a single such variable every independence test on it compares the exit rates only; where it goes to makes no difference. Statistics that are rejected with the three states that occur are accepted with a fourth one declared.",
  "every legal data set, numbers of declared states, prior and known edges, node, quantile functions, levels, threshold and execution mode; a witness for the lost rejection",
  "relates two runs for every data set; the failure is silent",
  [ES+"parameters_estimator.py:ParametersEstimator.compute_parameters_for_node", SG+"conditional_intensity_matrix.py:ConditionalIntensityMatrix.compute_cim_coefficients", ES+"structure_constraint_based_estimator.py:StructureConstraintBasedEstimator.independence_test", ES+"structure_constraint_based_estimator.py:StructureConstraintBasedEstimator.estimate_structure"])
p("The score when declared states never occur",
  "Declaring the same data with k' > k states for every variable instead of k leaves FamScore, for every node and parent set, the log marginal likelihood of the very same visits (dwell times and destinations); only the prior weight of a destination changes from alpha/(k-1) to alpha/(k'-1). Surplus states and parent configurations that contain them contribute nothing. Hence no score rises, and the score of every node that changes its state at least once drops strictly - by at most ln((k'-1)/(k-1)) per observed change of the node, whatever the parent set and the hyperparameters. So a parent set that scores better than another by more than that bound under either declaration scores better under the other.",
  "every legal data set, numbers of declared states 2 <= k <= k', prior and candidate edges within the variables, node, positive hyperparameters, function lg satisfying the log-gamma equation",
  "relates two runs for every data set and every pair of declarations, with real-valued scores",
  [ES+"fam_score_calculator.py:FamScoreCalculator.get_fam_score", ES+"fam_score_calculator.py:FamScoreCalculator.marginal_likelihood_theta", ES+"structure_score_based_estimator.py:StructureScoreBasedEstimator.get_score_from_graph", ES+"parameters_estimator.py:ParametersEstimator.compute_parameters_for_node"])
if __name__ == "__main__":
    for x in P: print(json.dumps(x))
