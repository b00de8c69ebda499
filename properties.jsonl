{"id": "C01", "title": "Removing a node from a Structure keeps everything else intact", "statement": "Structure.remove_node(n) on a structure that contains n deletes exactly that label; every other label keeps its dataset index and its cardinality, the relative order of labels is unchanged, exactly the edges that mention n disappear (the others keep their order), and total_variables_number does not change. If n is not a label the call raises ValueError and nothing changes.", "quantifier": "every structure with aligned label/index/cardinality arrays and distinct labels, every node, every sequence of removals", "why_tests_cant": "needs every array length, every position and every edge list, and every removal sequence", "anchors": ["PyCTBN/PyCTBN/structure_graph/structure.py:Structure.remove_node", "PyCTBN/PyCTBN/structure_graph/structure.py:Structure.get_node_indx", "PyCTBN/PyCTBN/structure_graph/structure.py:Structure.get_states_number"]}
{"id": "C02", "title": "Label, dataset index and position look-ups agree", "statement": "For a structure whose dataset indexes are 0..n-1, get_node_id(get_node_indx(l)) = l for every label and get_node_indx equals the positional index. After a removal the round trip is no longer valid: get_node_id interprets its argument as a position, so there are structures reachable by one remove_node on which get_node_id(get_node_indx(l)) returns another label or raises IndexError (finding).", "quantifier": "every label of every structure; every structure obtained by remove_node", "why_tests_cant": "quantifies over all structures and all removal histories", "anchors": ["PyCTBN/PyCTBN/structure_graph/structure.py:Structure.get_node_id", "PyCTBN/PyCTBN/structure_graph/structure.py:Structure.get_node_indx", "PyCTBN/PyCTBN/structure_graph/structure.py:Structure.get_positional_node_indx"]}
{"id": "C03", "title": "Structure equality is an equivalence but not a congruence", "statement": "Structure.__eq__ is reflexive, symmetric and transitive; equal structures have the same label set, the same index array, the same cardinality array and the same edge list. It ignores label order, so two structures can compare equal while get_states_number/get_node_indx of the same label differ (finding).", "quantifier": "all pairs and triples of structures", "why_tests_cant": "equivalence laws range over all triples of structures", "anchors": ["PyCTBN/PyCTBN/structure_graph/structure.py:Structure.__eq__"]}
{"id": "C04", "title": "Structure edge list behaves as a multiset", "statement": "After any sequence of add_edge / remove_edge / clean_structure_edges, contains_edge(e) holds iff the number of add_edge(e) since the last clean (plus initial occurrences) exceeds the number of successful remove_edge(e); remove_edge of an edge that is not contained raises ValueError and changes nothing.", "quantifier": "every initial edge list and every finite history of the three operations", "why_tests_cant": "needs all operation histories", "anchors": ["PyCTBN/PyCTBN/structure_graph/structure.py:Structure.add_edge", "PyCTBN/PyCTBN/structure_graph/structure.py:Structure.remove_edge", "PyCTBN/PyCTBN/structure_graph/structure.py:Structure.contains_edge", "PyCTBN/PyCTBN/structure_graph/structure.py:Structure.clean_structure_edges"]}
{"id": "C05", "title": "NetworkGraph edge operations implement a set of edges", "statement": "After any sequence of add_edges, remove_edges, add_nodes and successful remove_node calls, has_edge(e) is true iff e belongs to the mathematical set obtained by performing the same unions/differences; edges lists each such edge exactly once; get_parents_by_id(v) lists exactly the sources of edges into v, each once.", "quantifier": "every finite history of graph operations and every edge", "why_tests_cant": "needs all histories, including re-adding and removing absent edges", "anchors": ["PyCTBN/PyCTBN/structure_graph/network_graph.py:NetworkGraph.add_edges", "PyCTBN/PyCTBN/structure_graph/network_graph.py:NetworkGraph.remove_edges", "PyCTBN/PyCTBN/structure_graph/network_graph.py:NetworkGraph.remove_node", "PyCTBN/PyCTBN/structure_graph/network_graph.py:NetworkGraph.has_edge", "PyCTBN/PyCTBN/structure_graph/network_graph.py:NetworkGraph.get_parents_by_id", "PyCTBN/PyCTBN/structure_graph/network_graph.py:NetworkGraph.edges"]}
{"id": "C06", "title": "The ordered parent set depends only on the edge set", "statement": "get_ordered_by_indx_set_of_parents(v) returns the parents of v in the order of the structure's labels, with the dataset index and the cardinality of each parent at the same position; the result does not depend on the order in which edges were inserted or removed and re-inserted.", "quantifier": "every graph history whose nodes were added from a well-formed structure, every node", "why_tests_cant": "needs all insertion orders", "anchors": ["PyCTBN/PyCTBN/structure_graph/network_graph.py:NetworkGraph.get_ordered_by_indx_set_of_parents"]}
{"id": "C07", "title": "fast_init is idempotent and survives node removal", "statement": "Calling fast_init(v) twice yields the same indexing/filtering structures as calling it once; removing a parent q of v with remove_node(q) and calling fast_init(v) again yields exactly the structures obtained by building a fresh graph from the structure without q.", "quantifier": "every well-formed structure, every node, every removed node", "why_tests_cant": "needs all structures; the constraint-based test relies on it at every separating set", "anchors": ["PyCTBN/PyCTBN/structure_graph/network_graph.py:NetworkGraph.fast_init", "PyCTBN/PyCTBN/structure_graph/network_graph.py:NetworkGraph.remove_node", "PyCTBN/PyCTBN/estimators/structure_constraint_based_estimator.py:StructureConstraintBasedEstimator.complete_test"]}
{"id": "C08", "title": "Parent configuration table is the CIM order exactly when the first two parents have equal cardinality", "statement": "build_p_comb_structure_for_a_node(cards) has prod(cards) rows. Row k is the configuration whose CIM is stored at position k, for every k (so every configuration occurs exactly once), if and only if there are fewer than two parents or the first two cardinalities are equal (all cardinalities being positive). With unequal first cardinalities some legal configuration is missing and some illegal one is present (finding).", "quantifier": "every list of positive cardinalities of any length", "why_tests_cant": "needs every number of parents and every combination of cardinalities; existing tests only use tables built by the same code", "anchors": ["PyCTBN/PyCTBN/structure_graph/network_graph.py:NetworkGraph.build_p_comb_structure_for_a_node"]}
{"id": "C09", "title": "CIM filtering selects exactly the matching parent configurations", "statement": "SetOfCims.filter_cims_with_mask(mask, comb) with at least two mask entries returns, in order, exactly the CIMs whose stored parent configuration agrees with comb on the masked parents; with zero or one mask entries it returns all CIMs.", "quantifier": "every table of configurations, mask and configuration", "why_tests_cant": "all masks over all table sizes", "anchors": ["PyCTBN/PyCTBN/structure_graph/set_of_cims.py:SetOfCims.filter_cims_with_mask"]}
{"id": "C10", "title": "State residence times are exact for equal cardinalities", "statement": "When the node and all its parents have the same cardinality c, the residence time stored for parent configuration u and state x is the sum of the time deltas of exactly the rows in which the node is in state x and the parents are in configuration u.", "quantifier": "every trajectory data set of any length whose states are in range, every node, every parent set of any size, every c >= 1", "why_tests_cant": "needs all data sets, all parent-set sizes and all cardinalities", "anchors": ["PyCTBN/PyCTBN/estimators/parameters_estimator.py:ParametersEstimator.compute_state_res_time_for_node", "PyCTBN/PyCTBN/structure_graph/network_graph.py:NetworkGraph.build_time_scalar_indexing_structure_for_a_node", "PyCTBN/PyCTBN/structure_graph/network_graph.py:NetworkGraph.build_time_columns_filtering_for_a_node"]}
{"id": "C11", "title": "Transition counts are exact for equal cardinalities", "statement": "Under the same condition, the off-diagonal count stored for configuration u and states x, x' is the number of rows with parents u, current state x and next state x'; the diagonal entry is the sum of the off-diagonal entries of its row; rows whose next state of the node is negative (end-of-trajectory marker) do not contribute.", "quantifier": "every trajectory data set whose current states are in range and next states in range or negative, every node, every parent set, every c >= 1", "why_tests_cant": "needs all data sets, all parent-set sizes and all cardinalities", "anchors": ["PyCTBN/PyCTBN/estimators/parameters_estimator.py:ParametersEstimator.compute_state_transitions_for_a_node", "PyCTBN/PyCTBN/structure_graph/network_graph.py:NetworkGraph.build_transition_scalar_indexing_structure_for_a_node", "PyCTBN/PyCTBN/structure_graph/network_graph.py:NetworkGraph.build_transition_filtering_for_a_node"]}
{"id": "C12", "title": "Mixed cardinalities corrupt the sufficient statistics (finding)", "statement": "For a node and parents with different cardinalities the row index is x + sum u_i*p_1*...*p_i instead of x + sum u_i*c*p_1*...*p_(i-1): the two agree on all in-range rows if and only if every parent with at least two states has the node's cardinality; only then are the residence times right for every data set. There are data sets on which the returned residence times are silently wrong (c=3,p=2) and ones on which estimation raises ValueError (c=2,p=3).", "quantifier": "every node cardinality and list of parent cardinalities >= 2; witnesses for both failure modes", "why_tests_cant": "existing data sets are uniform-cardinality, so no test exercises it; the iff ranges over all cardinality lists", "anchors": ["PyCTBN/PyCTBN/estimators/parameters_estimator.py:ParametersEstimator.compute_state_res_time_for_node", "PyCTBN/PyCTBN/structure_graph/network_graph.py:NetworkGraph.build_time_scalar_indexing_structure_for_a_node"]}
{"id": "C13", "title": "Observed time is conserved", "statement": "Whenever residence-time estimation returns, whatever the cardinalities, the residence times of all configurations and states add up to the total of the time deltas.", "quantifier": "every data set and every cardinality assignment for which the call returns", "why_tests_cant": "needs all data sets and cardinalities", "anchors": ["PyCTBN/PyCTBN/estimators/parameters_estimator.py:ParametersEstimator.compute_state_res_time_for_node"]}
{"id": "C14", "title": "Estimated parameters do not depend on the order of rows or trajectories", "statement": "Permuting the rows of the processed data set (hence the order of the trajectories) leaves the estimated residence times, transition counts and CIMs unchanged.", "quantifier": "every permutation of every data set, every node and parent set", "why_tests_cant": "needs all permutations", "anchors": ["PyCTBN/PyCTBN/estimators/parameters_estimator.py:ParametersEstimator.compute_parameters_for_node"]}
{"id": "C15", "title": "CIM coefficients are the add-one smoothed rates", "statement": "compute_cim_coefficients gives (M[x,x']+1)/(T[x]+1) off the diagonal and (1-M[x,x])/(T[x]+1) on it, leaving the stored counts and times unchanged. Hence each row of an estimated CIM sums to n/(T[x]+1), never to 0, and the diagonal is positive when no transition was observed: the documented q_xx' = M/T and the generator property (zero row sums) do not hold (finding).", "quantifier": "every square count matrix whose diagonal is the off-diagonal row sum and every vector of non-negative residence times", "why_tests_cant": "exact identity over all count matrices; the unit test uses a tolerance of 10", "anchors": ["PyCTBN/PyCTBN/structure_graph/conditional_intensity_matrix.py:ConditionalIntensityMatrix.compute_cim_coefficients", "PyCTBN/PyCTBN/structure_graph/set_of_cims.py:SetOfCims.build_cims"]}
{"id": "C16", "title": "End to end: imported trajectories to node parameters", "statement": "Importing any list of well-formed trajectories, building the sample path and calling compute_parameters_for_node(v) on a graph with equal-cardinality parents returns one CIM per parent configuration, at the configuration's position in the configuration table, whose statistics are the dwell times and jumps of v read directly off the raw trajectories and whose rates are the add-one smoothed ratios of these.", "quantifier": "every list of trajectories of any length, every structure, node and parent set with equal cardinalities", "why_tests_cant": "composition of importer, sample path, graph and estimator over all inputs", "anchors": ["PyCTBN/PyCTBN/utility/sample_importer.py:SampleImporter.import_data", "PyCTBN/PyCTBN/structure_graph/sample_path.py:SamplePath.build_trajectories", "PyCTBN/PyCTBN/estimators/parameters_estimator.py:ParametersEstimator.compute_parameters_for_node"]}
{"id": "C17", "title": "The cache is a first-write-wins map keyed by parent sets", "statement": "After any sequence of put/clear, find(s) returns the value of the first put since the last clear whose key is equal to s as a set (whatever order or repetition), and None when there is none.", "quantifier": "every finite history of put, find and clear", "why_tests_cant": "needs all histories and all set representations", "anchors": ["PyCTBN/PyCTBN/utility/cache.py:Cache.find", "PyCTBN/PyCTBN/utility/cache.py:Cache.put", "PyCTBN/PyCTBN/utility/cache.py:Cache.clear"]}
{"id": "C18", "title": "Separating-set enumeration is complete and exact", "statement": "generate_possible_sub_sets_of_size(u, k, p) enumerates exactly the k-element sub-lists (in u order) of u without p, each once; raises ValueError when p is not in u.", "quantifier": "every duplicate-free candidate list u, every size k, every p", "why_tests_cant": "all sizes and all lists", "anchors": ["PyCTBN/PyCTBN/estimators/structure_estimator.py:StructureEstimator.generate_possible_sub_sets_of_size"]}
{"id": "C19", "title": "The independence test compares exactly the right pairs of CIMs", "statement": "complete_test(p, c, S) with equal cardinalities is True iff for every configuration s of S and every state t of p the pairwise test accepts (CIM of c given s, CIM of c given s and p=t); after any earlier tests on the same child the answer is the same as with an empty cache, except that the call raises UnboundLocalError exactly when the set S+{p} is cached from earlier tests and S is not (finding).", "quantifier": "every data set, test parent, child, separating set and every cache content produced by earlier tests on the same child", "why_tests_cant": "needs all cache histories and all separating sets", "anchors": ["PyCTBN/PyCTBN/estimators/structure_constraint_based_estimator.py:StructureConstraintBasedEstimator.complete_test", "PyCTBN/PyCTBN/structure_graph/set_of_cims.py:SetOfCims.filter_cims_with_mask"]}
{"id": "C20", "title": "The cache never makes the constraint-based search crash or go stale", "statement": "Starting from an empty cache, throughout ConstraintBasedOptimizer.optimize_structure every cache hit equals the freshly computed SetOfCims and the 'small' parent set is always cached whenever the 'large' one is, so the code path that would read the unbound variable g2 is never taken; on return the cache is empty.", "quantifier": "every data set, node, known-edge matrix and every outcome of the statistical tests", "why_tests_cant": "needs an invariant over all interleavings of tests and removals", "anchors": ["PyCTBN/PyCTBN/estimators/structure_constraint_based_estimator.py:StructureConstraintBasedEstimator.complete_test", "PyCTBN/PyCTBN/optimizers/constraint_based_optimizer.py:ConstraintBasedOptimizer.optimize_structure", "PyCTBN/PyCTBN/utility/cache.py:Cache"]}
{"id": "C21", "title": "The constraint-based search terminates", "statement": "optimize_structure performs finitely many iterations: the nested while loops finish within |u|+1 outer and |u| inner rounds whatever the tests answer.", "quantifier": "every candidate list and every (even state-dependent) test outcome", "why_tests_cant": "termination for all oracles", "anchors": ["PyCTBN/PyCTBN/optimizers/constraint_based_optimizer.py:ConstraintBasedOptimizer.optimize_structure"]}
{"id": "C22", "title": "Constraint-based search: kept and removed parents are justified", "statement": "With deterministic tests, a parent p is removed from node c only if some separating set S of other candidate parents made complete_test(p,c,S) True; and every parent that is still in the result and is removable was tested, with answer False, against every subset of the other remaining parents.", "quantifier": "every test function, node and number of variables", "why_tests_cant": "needs all oracles and all subset sizes", "anchors": ["PyCTBN/PyCTBN/optimizers/constraint_based_optimizer.py:ConstraintBasedOptimizer.optimize_structure"]}
{"id": "C23", "title": "Known edges are never removed by the constraint-based estimator", "statement": "Every edge (a,b), a != b, passed as known_edges is in the set returned by StructureConstraintBasedEstimator.estimate_structure.", "quantifier": "every known-edge list over the labels, every data set and test outcome", "why_tests_cant": "needs all test outcomes", "anchors": ["PyCTBN/PyCTBN/estimators/structure_estimator.py:StructureEstimator.build_removable_edges_matrix", "PyCTBN/PyCTBN/optimizers/constraint_based_optimizer.py:ConstraintBasedOptimizer.optimize_structure"]}
{"id": "C24", "title": "Constraint-based results are well-formed", "statement": "Every edge returned by estimate_structure goes between two distinct variables of the structure; the edges into a node are exactly what optimize_structure returned for that node.", "quantifier": "every data set, known-edge list and test outcome", "why_tests_cant": "needs all runs", "anchors": ["PyCTBN/PyCTBN/estimators/structure_constraint_based_estimator.py:StructureConstraintBasedEstimator.ctpc_algorithm"]}
{"id": "C25", "title": "Sequential and multi-process constraint-based estimation agree", "statement": "estimate_structure(disable_multiprocessing=True) and the process-pool version return the same edge set for every way of distributing the nodes over worker processes: the state shared in the sequential run (cache, removable-edge matrix) never influences another node.", "quantifier": "every data set, known-edge list, threshold and schedule", "why_tests_cant": "needs all schedules and all shared-state histories", "anchors": ["PyCTBN/PyCTBN/estimators/structure_constraint_based_estimator.py:StructureConstraintBasedEstimator.ctpc_algorithm", "PyCTBN/PyCTBN/estimators/structure_constraint_based_estimator.py:StructureConstraintBasedEstimator.independence_test"]}
{"id": "C26", "title": "Re-running the constraint-based estimator is not idempotent (finding)", "statement": "A pair (parent, child) that once fails the sample-size rule of thumb is marked non-removable in the estimator object for good; marks are never undone. A second sequential estimate_structure on the same estimator can therefore return an edge that the first one removed, whereas the multi-process version (which discards the workers' copies) is repeatable.", "quantifier": "every run for the monotonicity of marks; a witness run for the difference", "why_tests_cant": "needs the history of the estimator object", "anchors": ["PyCTBN/PyCTBN/estimators/structure_constraint_based_estimator.py:StructureConstraintBasedEstimator.independence_test"]}
{"id": "C27", "title": "Proportional transition counts never reject independence in the chi-square step", "statement": "For a state that both CIMs leave and whose destinations have all been seen by one of them, the chi-square statistic used by independence_test is Pearson's statistic of the 2-row contingency table of destinations; it is non-negative, symmetric under swapping the two CIMs, and 0 exactly when the two off-diagonal rows are proportional. Proportional rows never reject in the chi-square step.", "quantifier": "all pairs of estimated CIMs and states; all quantile functions that are positive for positive degrees of freedom and nan for 0", "why_tests_cant": "identity over all real-valued rows", "anchors": ["PyCTBN/PyCTBN/estimators/structure_constraint_based_estimator.py:StructureConstraintBasedEstimator.independence_test"]}
{"id": "C28", "title": "Score-based search never returns a worse structure", "statement": "The parent set returned by HillClimbing and by TabuSearch has a score at least as good as the initial (known-edges) parent set, strictly better whenever it differs as an edge set, and every intermediate accepted structure strictly improves on the previous one.", "quantifier": "every score function into a strict order, every sequence of random choices, every parameter setting", "why_tests_cant": "needs all random choices and score functions", "anchors": ["PyCTBN/PyCTBN/optimizers/hill_climbing_search.py:HillClimbing.optimize_structure", "PyCTBN/PyCTBN/optimizers/tabu_search.py:TabuSearch.optimize_structure"]}
{"id": "C29", "title": "Score-based search respects max_parents", "statement": "If the known parents do not exceed max_parents (>= 1), the node never has more than max_parents parents in the returned structure.", "quantifier": "every score function and every sequence of random choices", "why_tests_cant": "needs all random choices", "anchors": ["PyCTBN/PyCTBN/optimizers/hill_climbing_search.py:HillClimbing.optimize_structure", "PyCTBN/PyCTBN/optimizers/tabu_search.py:TabuSearch.optimize_structure"]}
{"id": "C30", "title": "Known edges survive score-based search without max_parents, but not with it", "statement": "With max_parents=None every known edge into the node is in the returned structure. With max_parents set, a known edge can be evicted by the random choice of the parent to drop (finding, with witness).", "quantifier": "every score function and sequence of random choices; witness for the violation", "why_tests_cant": "needs all random choices", "anchors": ["PyCTBN/PyCTBN/optimizers/hill_climbing_search.py:HillClimbing.optimize_structure", "PyCTBN/PyCTBN/optimizers/tabu_search.py:TabuSearch.optimize_structure"]}
{"id": "C31", "title": "Score-based search returns only edges into the node", "statement": "When the structure's own edge list is empty (as estimate_structure ensures), every returned edge points into the node being optimised, comes from a different variable of the structure (unless a self-loop was given as known edge), and no edge is repeated.", "quantifier": "every run", "why_tests_cant": "needs all runs", "anchors": ["PyCTBN/PyCTBN/optimizers/hill_climbing_search.py:HillClimbing.optimize_structure", "PyCTBN/PyCTBN/optimizers/tabu_search.py:TabuSearch.optimize_structure", "PyCTBN/PyCTBN/estimators/structure_score_based_estimator.py:StructureScoreBasedEstimator.estimate_structure"]}
{"id": "C32", "title": "Iterations and patience bound the search", "statement": "Hill climbing and tabu search evaluate at most iterations_number candidate structures; with patience p they stop right after p+1 consecutive rejected candidates and never before.", "quantifier": "every score function, sequence of random choices, iterations_number and patience", "why_tests_cant": "needs all runs", "anchors": ["PyCTBN/PyCTBN/optimizers/hill_climbing_search.py:HillClimbing.optimize_structure", "PyCTBN/PyCTBN/optimizers/tabu_search.py:TabuSearch.optimize_structure"]}
{"id": "C33", "title": "When score-based search fails to return", "statement": "With at least one iteration, HillClimbing raises IndexError when there is no candidate parent, or when max_parents=0 and there is a candidate but no known parent; TabuSearch blocks forever on an empty queue when there is no candidate parent or tabu_length is 0, raises ZeroDivisionError for tabu_rules_duration=0 and IndexError when max_parents=0 and there is no known parent. If scores are computable (as they are on legal data with equal cardinalities) these parameter values are the only ones with which they can fail, and only with these outcomes; in all other cases they return, and so does estimate_structure for the whole network, in both modes. When searches do fail, a sequential call fails as the first failing search does (later ones are not made), while in the pool one search that hangs makes the whole call hang even if an earlier one raised, and otherwise the exception of the first failing search is raised; so a variable without candidate parents makes a pooled tabu call hang whatever the other parameters, and a hill-climbing call raise IndexError in both modes.", "quantifier": "every parameter setting and sequence of random choices", "why_tests_cant": "a hang cannot be observed by a unit test; needs all runs", "anchors": ["PyCTBN/PyCTBN/optimizers/hill_climbing_search.py:HillClimbing.optimize_structure", "PyCTBN/PyCTBN/optimizers/tabu_search.py:TabuSearch.optimize_structure"]}
{"id": "C34", "title": "Tabu list consistency and effect", "statement": "Throughout TabuSearch the tabu queue and the tabu set hold the same nodes without repetition and at most tabu_length of them, so removing from the set never raises KeyError; a node on the tabu list is never the next candidate unless every candidate is tabu, in which case the oldest one is used.", "quantifier": "every run", "why_tests_cant": "needs all interleavings of expiry, eviction and choice", "anchors": ["PyCTBN/PyCTBN/optimizers/tabu_search.py:TabuSearch.optimize_structure"]}
{"id": "C35", "title": "FamScore is the log marginal likelihood", "statement": "get_fam_score is the sum over parent configurations and states of the log of the gamma-exponential marginal likelihood of the residence times and of the log of the Dirichlet-multinomial marginal likelihood of the transitions; the latter equals the log of the product of sequential predictive probabilities. For binary variables the Dirichlet part is 0.", "quantifier": "all transition counts, residence times and positive hyper-parameters; any log-gamma satisfying its functional equation", "why_tests_cant": "identity over all counts", "anchors": ["PyCTBN/PyCTBN/estimators/fam_score_calculator.py:FamScoreCalculator"]}
{"id": "C36", "title": "FamScore does not depend on the order of parent configurations and fails for one-state variables", "statement": "get_fam_score is invariant under permutation of the CIMs; for a variable with a single state the computation raises ZeroDivisionError.", "quantifier": "all CIM sets and permutations", "why_tests_cant": "all permutations", "anchors": ["PyCTBN/PyCTBN/estimators/fam_score_calculator.py:FamScoreCalculator.get_fam_score"]}
{"id": "C37", "title": "Adjacency matrix agrees with the returned edges", "statement": "After estimate_structure, adjacency_matrix()[i][j] is True iff (nodes[i], nodes[j]) is in the returned edge set, also when some variables are isolated.", "quantifier": "every estimation result", "why_tests_cant": "all graphs, including ones with isolated nodes", "anchors": ["PyCTBN/PyCTBN/estimators/structure_estimator.py:StructureEstimator.adjacency_matrix"]}
{"id": "C38", "title": "spurious_edges is not what it says", "statement": "After any estimate_structure call (either estimator) spurious_edges() returns the empty list whatever was estimated, because the call erases the structure's edges; before it, with a prior structure and equal node sets it returns the prior edges that are missing from the current graph, not the spurious ones - on a new estimator only prior self-loops (finding).", "quantifier": "every prior structure and estimation result", "why_tests_cant": "needs the history of the shared structure object", "anchors": ["PyCTBN/PyCTBN/estimators/structure_estimator.py:StructureEstimator.spurious_edges", "PyCTBN/PyCTBN/structure_graph/structure.py:Structure.clean_structure_edges"]}
{"id": "C39", "title": "Score-based estimation is the union of independent per-node searches", "statement": "estimate_structure returns exactly the union of estimate_parents over the nodes, in both process modes, and leaves a graph with exactly these edges; the printed precision and recall are |true and found|/|found| and |true and found|/|true|, or a division error when either set is empty - always so on a second call, because the first one erases the true edges (finding).", "quantifier": "every per-node result and true structure", "why_tests_cant": "all schedules and edge sets", "anchors": ["PyCTBN/PyCTBN/estimators/structure_score_based_estimator.py:StructureScoreBasedEstimator.estimate_structure"]}
{"id": "C40", "title": "Initial graph and prior matrix", "statement": "The estimator starts from the complete directed graph without self-loops; the removable-edge matrix is False exactly at the known edges; a known edge with an unknown label raises ValueError.", "quantifier": "every label list and known-edge list", "why_tests_cant": "all sizes", "anchors": ["PyCTBN/PyCTBN/estimators/structure_estimator.py:StructureEstimator.build_complete_graph", "PyCTBN/PyCTBN/estimators/structure_estimator.py:StructureEstimator.build_removable_edges_matrix"]}
{"id": "C41", "title": "Saved results can be read back", "statement": "The node-link data written by save_results determines the estimated graph: reading it back yields the same nodes and the same edges. Only variables with at least one edge are written (finding: isolated variables are lost).", "quantifier": "every estimated graph", "why_tests_cant": "all graphs", "anchors": ["PyCTBN/PyCTBN/estimators/structure_estimator.py:StructureEstimator.save_results"]}
{"id": "C42", "title": "Row deltas and shifted columns", "statement": "compute_row_delta_sigle_samples_frame on a frame with n rows returns n-1 rows; row i holds the time difference between rows i+1 and i, the states of row i and, in the shifted columns, the states of row i+1. The caller's frame is unchanged.", "quantifier": "every frame with a unique index, any number of rows and columns, no label equal to another label plus 'S'", "why_tests_cant": "all lengths and column counts", "anchors": ["PyCTBN/PyCTBN/utility/abstract_importer.py:AbstractImporter.compute_row_delta_sigle_samples_frame"]}
{"id": "C43", "title": "Concatenation never creates transitions between trajectories", "statement": "compute_row_delta_in_all_samples_frames yields the per-trajectory rows one after the other: sum of (n_i - 1) rows, no row mixes two trajectories, and the deltas add up to the sum of the trajectory durations.", "quantifier": "every list of well-formed trajectories", "why_tests_cant": "all numbers and lengths of trajectories", "anchors": ["PyCTBN/PyCTBN/utility/abstract_importer.py:AbstractImporter.compute_row_delta_in_all_samples_frames"]}
{"id": "C44", "title": "Importer column naming pitfalls (findings)", "statement": "The time column must be called 'Time' and be the first column: with another time_key the import raises KeyError, with 'Time' in another position the wrong column is differenced. If one variable's label is another's label plus 'S', the shifted column overwrites the original data.", "quantifier": "every time key different from 'Time'; witness frames", "why_tests_cant": "needs arbitrary column names", "anchors": ["PyCTBN/PyCTBN/utility/abstract_importer.py:AbstractImporter.compute_row_delta_in_all_samples_frames", "PyCTBN/PyCTBN/utility/json_importer.py:JsonImporter.build_sorter"]}
{"id": "C45", "title": "SamplePath life cycle", "statement": "SamplePath refuses an importer without variables or with an empty processed frame (RuntimeError); after build_trajectories the processed frame is empty, so building again yields an empty trajectory and a second SamplePath on the importer raises RuntimeError. A SampleImporter whose import_data was never called is accepted (finding).", "quantifier": "every importer state and every sequence of the calls", "why_tests_cant": "needs all call sequences", "anchors": ["PyCTBN/PyCTBN/structure_graph/sample_path.py:SamplePath.__init__", "PyCTBN/PyCTBN/structure_graph/sample_path.py:SamplePath.build_trajectories", "PyCTBN/PyCTBN/utility/abstract_importer.py:AbstractImporter.clear_concatenated_frame"]}
{"id": "C46", "title": "build_structure checks the variable order", "statement": "build_structure raises RuntimeError iff the data columns and the variables frame list the labels in different order; otherwise the structure pairs each label with its row's index and cardinality, and its edges are the prior structure rows.", "quantifier": "every variables frame, column order and prior structure", "why_tests_cant": "all frames", "anchors": ["PyCTBN/PyCTBN/structure_graph/sample_path.py:SamplePath.build_structure"]}
{"id": "C47", "title": "Generated graphs", "statement": "generate_graph never creates self-loops or repeated edges, whatever the random draws; with fixed=True and density d it creates exactly d*n*(n-1) edges when that number is an integer in range and raises RuntimeError when it is not an integer.", "quantifier": "every label list, density and random draws", "why_tests_cant": "all random outcomes", "anchors": ["PyCTBN/PyCTBN/structure_graph/network_generator.py:NetworkGenerator.generate_graph"]}
{"id": "C48", "title": "Generated CIMs", "statement": "generate_cims creates prod(parent cardinalities) CIMs per node; before rounding each row sums to 0, has a diagonal in [-max,-min] and non-negative off-diagonal entries; rounding to 4 digits changes each row sum by at most n/20000. Off-diagonal entries need not lie in [min,max] although documented (finding).", "quantifier": "every range, cardinality and random draws with positive off-diagonal sum", "why_tests_cant": "all random outcomes", "anchors": ["PyCTBN/PyCTBN/structure_graph/network_generator.py:NetworkGenerator.generate_cims"]}
{"id": "C49", "title": "Shape of generated trajectories", "statement": "CTBN_Sample(max_tr=n) returns n+1 rows; the first row is all zeros at time 0 (when n>0), the last row is all -1; between consecutive rows other than the last exactly one variable changes; all values are in range; times never decrease.", "quantifier": "every network with valid CIMs, every n and every random draw", "why_tests_cant": "all random outcomes and lengths", "anchors": ["PyCTBN/PyCTBN/structure_graph/trajectory_generator.py:TrajectoryGenerator.CTBN_Sample"]}
{"id": "C50", "title": "Termination of trajectory generation", "statement": "CTBN_Sample(max_tr=n) terminates after exactly n transitions; with t_end the recorded times never exceed t_end (up to rounding to 4 digits), and it terminates when rates and draws are bounded below (with all-zero draws it does not); called without limits it never returns.", "quantifier": "every network and random draw", "why_tests_cant": "non-termination is not observable by a test", "anchors": ["PyCTBN/PyCTBN/structure_graph/trajectory_generator.py:TrajectoryGenerator.CTBN_Sample"]}
{"id": "C51", "title": "Sampled dwell times use the rate as a scale (finding)", "statement": "The time until the next event of a variable is rate*E for a standard exponential draw E, i.e. exponential with mean q, while the CTBN semantics requires E/rate (mean 1/q): the two agree only for rate 1. Apart from the scale, a run is the race of the CTBN semantics: at each transition the variable with the smallest scheduled time moves, a variable is rescheduled with a fresh draw exactly when it or one of its parents changes, and the next state is drawn with its off-diagonal rates as weights.", "quantifier": "every rate and draw", "why_tests_cant": "a distributional error that tolerance-based tests do not detect", "anchors": ["PyCTBN/PyCTBN/structure_graph/trajectory_generator.py:TrajectoryGenerator.CTBN_Sample"]}
{"id": "C52", "title": "Sampling uses the CIM of the current parent configuration", "statement": "With at most one parent, or the first two parents of equal cardinality, the CIM used to sample a variable is the one generated for the current configuration of its parents; when its first two parents have different cardinalities some row of valid states has no CIM and sampling in that row raises IndexError (finding).", "quantifier": "every network and parent state", "why_tests_cant": "all configurations", "anchors": ["PyCTBN/PyCTBN/structure_graph/trajectory_generator.py:TrajectoryGenerator.CTBN_Sample", "PyCTBN/PyCTBN/structure_graph/network_graph.py:NetworkGraph.build_p_comb_structure_for_a_node"]}
{"id": "C53", "title": "multi_trajectory: count, order and duplicated randomness", "statement": "In every schedule in which all workers finish, multi_trajectory returns one trajectory per request, in completion order (a permutation of the per-request results). Because every forked worker starts from the parent's random state, requests with equal parameters return identical trajectories (finding).", "quantifier": "every schedule, request list and random state", "why_tests_cant": "needs all schedules", "anchors": ["PyCTBN/PyCTBN/structure_graph/trajectory_generator.py:TrajectoryGenerator.multi_trajectory", "PyCTBN/PyCTBN/structure_graph/trajectory_generator.py:TrajectoryGenerator.worker"]}
{"id": "C54", "title": "Exported parent configurations parse back only for one-digit states", "statement": "The key written by cims_to_json for a configuration is parsed back by TrajectoryGenerator to the list of leading decimal digits of the states: the configuration itself iff all states are below 10 (labels without '='); with a state >= 10 a wrong configuration is read (finding).", "quantifier": "all parent lists and configurations", "why_tests_cant": "all strings and numbers", "anchors": ["PyCTBN/PyCTBN/utility/json_exporter.py:JsonExporter.cims_to_json", "PyCTBN/PyCTBN/structure_graph/trajectory_generator.py:TrajectoryGenerator.__init__"]}
{"id": "C55", "title": "Exported CIMs come back at the same configuration", "statement": "For a generated network with at least one edge, cardinalities at most 10 and no '=' in a label, exporting the CIMs and loading them into a TrajectoryGenerator yields the generator built from the network in memory: for every variable and parent configuration the CIM that was generated for it, and the same trajectories from the same draws. Findings: with two or more parents, one of them in state 10 or above, the reloaded generator finds no CIM (IndexError); a network without edges cannot be loaded (KeyError).", "quantifier": "every generated network and configuration", "why_tests_cant": "all networks", "anchors": ["PyCTBN/PyCTBN/utility/json_exporter.py:JsonExporter.cims_to_json", "PyCTBN/PyCTBN/structure_graph/trajectory_generator.py:TrajectoryGenerator.__init__", "PyCTBN/PyCTBN/structure_graph/network_generator.py:NetworkGenerator.dyn_str"]}
{"id": "C56", "title": "The parameter cache is not keyed by the child (finding)", "statement": "If S+{p} and S are both in the cache, complete_test(p, c, S) answers from the cached parameters whatever the child c is: for a child other than the one the cache was filled for (complete_test called directly, or after an optimize_structure that raised) the answer is that of the first child; there are data where it differs from the right one.", "quantifier": "every estimator, cache content and pair of children; a witness for the wrong answer", "why_tests_cant": "needs all cache contents and call orders", "anchors": ["PyCTBN/PyCTBN/estimators/structure_constraint_based_estimator.py:StructureConstraintBasedEstimator.complete_test", "PyCTBN/PyCTBN/utility/cache.py:Cache.find"]}
{"id": "C57", "title": "estimate_parents on a structure that still has edges (finding)", "statement": "Called directly (not through estimate_structure, which first erases the edges), estimate_parents returns every edge of the sample path's structure, whatever the scores, the node and the optimizer: edges into other nodes are returned and max_parents can be exceeded.", "quantifier": "every structure, node, parameter set, data set, score and random draws; a witness for max_parents", "why_tests_cant": "needs all search histories", "anchors": ["PyCTBN/PyCTBN/estimators/structure_score_based_estimator.py:StructureScoreBasedEstimator.estimate_parents", "PyCTBN/PyCTBN/structure_graph/network_graph.py:NetworkGraph.fast_init"]}
{"id": "C58", "title": "An unseen destination switches the chi-square test off (finding)", "statement": "If neither CIM has seen some destination of a state, the chi-square statistic of that state is nan and the state never rejects independence, whatever the other counts (witness: from one state, all 30 transitions of one CIM go to a second state and all 30 of the other to a third). A state that one of the CIMs never leaves is never a reason to reject, in either test.", "quantifier": "all pairs of estimated CIMs, states, significance levels and quantile functions", "why_tests_cant": "needs all count matrices; only special values show it", "anchors": ["PyCTBN/PyCTBN/estimators/structure_constraint_based_estimator.py:StructureConstraintBasedEstimator.independence_test"]}
{"id": "C59", "title": "For binary variables the chi-square test is vacuous", "statement": "For a child with two states the chi-square step never rejects: independence is decided by the exponential (F) test alone.", "quantifier": "all pairs of estimated CIMs of a binary variable and all significance levels", "why_tests_cant": "needs all counts", "anchors": ["PyCTBN/PyCTBN/estimators/structure_constraint_based_estimator.py:StructureConstraintBasedEstimator.independence_test"]}
{"id": "C60", "title": "A single transition makes the exponential test reject (finding)", "statement": "Because the diagonal of an estimated CIM is (1 - m)/(t + 1) instead of -(m + 1)/(t + 1), the F statistic of a state left exactly once in one CIM and more than once in the other is 0 or -inf and independence is always rejected, even when the two rates are equal; left exactly once in both it is nan and never rejects.", "quantifier": "all pairs of estimated CIMs, states, significance levels in (0,1) and positive quantiles", "why_tests_cant": "needs all counts and times", "anchors": ["PyCTBN/PyCTBN/estimators/structure_constraint_based_estimator.py:StructureConstraintBasedEstimator.independence_test", "PyCTBN/PyCTBN/structure_graph/conditional_intensity_matrix.py:ConditionalIntensityMatrix.compute_cim_coefficients"]}
{"id": "C61", "title": "Exactly which pairs of CIMs pass independence_test", "statement": "Once the rule of thumb is met, independence_test returns True iff every state is either never left in one CIM, or (left once in both, or left at least twice in both with the ratio of the smoothed rates between the two F quantiles) and (has an unseen destination or a Pearson statistic not above the chi-square quantile). The answer does not depend on the order of the CIMs, and a CIM tested against itself passes when 1 lies between the quantiles. With C19 this gives the meaning of complete_test on the data.", "quantifier": "all pairs of estimated CIMs, data sets, separating sets; all quantile functions with the assumed signs (and reciprocity for the order of the CIMs)", "why_tests_cant": "needs all CIMs including the special floating-point values", "anchors": ["PyCTBN/PyCTBN/estimators/structure_constraint_based_estimator.py:StructureConstraintBasedEstimator.independence_test", "PyCTBN/PyCTBN/estimators/structure_constraint_based_estimator.py:StructureConstraintBasedEstimator.complete_test"]}
{"id": "C62", "title": "Faithful tests make the constraint-based estimator exact", "statement": "If, for every variable v, the independence tests never separate v from its true parents (whatever the separating set) and separate it from every other variable given exactly the true parents, then estimate_structure returns exactly the true edges, in both modes; for one variable the true parents are always kept, and an additional parent can only come from a known edge or from a test that gave up for lack of data. For binary variables tests never give up, so faithfulness alone suffices when the known edges are true.", "quantifier": "every estimator, data set, test outcome assignment, set of true edges and known edges", "why_tests_cant": "needs all test outcome assignments and search histories", "anchors": ["PyCTBN/PyCTBN/estimators/structure_constraint_based_estimator.py:StructureConstraintBasedEstimator.estimate_structure", "PyCTBN/PyCTBN/optimizers/constraint_based_optimizer.py:ConstraintBasedOptimizer.optimize_structure"]}
{"id": "C63", "title": "Local optimality at the end of a score-based search", "statement": "The candidates tried since the last improvement certify the result: no allowed addition or removal of one of them improves the score. In tabu search with the default (or sufficiently large) tabu_length and tabu_rules_duration the candidates are tried in a fixed cyclic order whatever the random draws, so a full cycle without improvement, or an early stop with patience at least (number of candidates - 1), yields a locally optimal parent set; so do c 2^c iterations for c candidates if max_parents is not set. Hill climbing has no such guarantee: a run may stop by patience although an untried change improves the score.", "quantifier": "every structure, data set, score, order, random draws and parameters; a witness run for the last sentence", "why_tests_cant": "needs all search histories and random draws", "anchors": ["PyCTBN/PyCTBN/optimizers/tabu_search.py:TabuSearch.optimize_structure", "PyCTBN/PyCTBN/optimizers/hill_climbing_search.py:HillClimbing.optimize_structure"]}
{"id": "C64", "title": "The parameters depend on the observations only, not on how they are cut up", "statement": "Importing the same observed process presented differently - trajectories in another order, clocks shifted, a trajectory cut in two at one of its observations, additional observations at which no variable has changed - yields the same structure and, for every node and every parent set, exactly the same conditional intensity matrices, residence times and transition counts. Statistics are additive: importing two data sets together gives, entry by entry, the sum of the residence times and transition counts obtained from each. Multiplying all clock readings by k multiplies the residence times by k and leaves the counts unchanged.", "quantifier": "every legal set of raw trajectories and every sequence of such rearrangements; every network, node and parent set whose cardinalities are supported; every k", "why_tests_cant": "needs all data sets and all rearrangements; tests compare a few fixed data sets", "anchors": ["PyCTBN/PyCTBN/utility/abstract_importer.py:AbstractImporter.compute_row_delta_in_all_samples_frames", "PyCTBN/PyCTBN/structure_graph/sample_path.py:SamplePath.build_trajectories", "PyCTBN/PyCTBN/estimators/parameters_estimator.py:ParametersEstimator.compute_parameters_for_node"]}
{"id": "C65", "title": "The learned structure depends on the observations only", "statement": "When all variables have the same number of states, two presentations of the same observed process (as in the previous property) lead both structure estimators to the same set of edges (or the same exception), in both modes, for every test outcome function, score function, known edges, random draws and search parameters. For arbitrary cardinalities the same holds for two processed data sets that differ only in the order of their rows.", "quantifier": "every legal set of raw trajectories and rearrangement, every estimator configuration and random draws", "why_tests_cant": "needs all data sets, rearrangements, draws and search histories", "anchors": ["PyCTBN/PyCTBN/estimators/structure_constraint_based_estimator.py:StructureConstraintBasedEstimator.estimate_structure", "PyCTBN/PyCTBN/estimators/structure_score_based_estimator.py:StructureScoreBasedEstimator.estimate_structure", "PyCTBN/PyCTBN/utility/abstract_importer.py:AbstractImporter.compute_row_delta_in_all_samples_frames"]}
{"id": "C66", "title": "A saved network and its trajectories can be read back", "statement": "Exporting variables, edges, CIMs and trajectories with JsonExporter and importing the file with JsonImporter under the exporter's keys gives the learner the same structure and trajectory as handing the trajectory DataFrames to SampleImporter, and gives TrajectoryGenerator the same variables, edges and CIMs; import_sampled_cims returns every variable's matrices in order. The element of the outer array named by indx, and nothing else, is read; without an outer array the object itself is read. Findings: a file with no trajectory, or with a trajectory without rows, is written without complaint but cannot be imported (IndexError or ValueError).", "quantifier": "every legal set of variables, edges, CIMs and trajectories; every document and index", "why_tests_cant": "needs all documents; tests read a few fixed files", "anchors": ["PyCTBN/PyCTBN/utility/json_exporter.py:JsonExporter.out_file", "PyCTBN/PyCTBN/utility/json_importer.py:JsonImporter.import_data", "PyCTBN/PyCTBN/utility/json_importer.py:JsonImporter.import_sampled_cims", "PyCTBN/PyCTBN/structure_graph/trajectory_generator.py:TrajectoryGenerator.__init__"]}
{"id": "C67", "title": "Generate, sample, save, load, learn", "statement": "For every generated network that can be sampled (labels without '=', at most ten states, at least one edge) and all trajectories sampled from it, the saved file can be read back: the reloaded TrajectoryGenerator is the original one, and SamplePath delivers a legal data set with the original labels, cardinalities and edges. Finding: the last transition of every sampled trajectory is lost to the learner, because its destination is overwritten by -1: of n transitions requested, n-1 are counted.", "quantifier": "every generated network, all random draws, all limits, any number of trajectories", "why_tests_cant": "needs all networks and all random draws", "anchors": ["PyCTBN/PyCTBN/structure_graph/network_generator.py:NetworkGenerator.generate_cims", "PyCTBN/PyCTBN/structure_graph/trajectory_generator.py:TrajectoryGenerator.CTBN_Sample", "PyCTBN/PyCTBN/utility/json_exporter.py:JsonExporter.out_file", "PyCTBN/PyCTBN/utility/json_importer.py:JsonImporter.import_data", "PyCTBN/PyCTBN/structure_graph/sample_path.py:SamplePath.build_structure"]}
{"id": "C68", "title": "Every observed change is counted exactly once", "statement": "For every node and every parent set with supported cardinalities, the estimated CIMs together count each observed change of the node exactly once off the diagonal and once on the diagonal, and never a change to the end-of-trajectory marker; their residence times sum to the total observed time of the trajectories.", "quantifier": "every legal data set, network, node and parent set", "why_tests_cant": "needs all data sets", "anchors": ["PyCTBN/PyCTBN/estimators/parameters_estimator.py:ParametersEstimator.compute_parameters_for_node", "PyCTBN/PyCTBN/structure_graph/sample_path.py:SamplePath.build_trajectories"]}
{"id": "C69", "title": "Floating point does not spoil the parameters", "statement": "With float64 arithmetic, the estimated parameters of legal data of n rows whose clocks do not run backwards (total time at most 2^1000, n at most 2^51, c^3 times the number of parent configurations at most 2^53) are: every transition count exactly right, every residence time off by at most (n+1) 2^-52 of its value, every intensity off by at most (n+3) 2^-52 of its value, and never a NaN or an infinity; no observation is attributed to a wrong configuration by the floating-point computation of array indexes, and off-diagonal intensities stay positive. Finding: the sums are not exact - a residence time of 1 plus one of 2^-60 is stored as 1.", "quantifier": "every legal data set with float64 clock readings, every network, node and parent set within these bounds", "why_tests_cant": "needs all data sets: rounding errors depend on every value and on the order of summation", "anchors": ["PyCTBN/PyCTBN/utility/abstract_importer.py:AbstractImporter.compute_row_delta_sigle_samples_frame", "PyCTBN/PyCTBN/estimators/parameters_estimator.py:ParametersEstimator.compute_state_res_time_for_node", "PyCTBN/PyCTBN/estimators/parameters_estimator.py:ParametersEstimator.compute_state_transitions_for_a_node", "PyCTBN/PyCTBN/structure_graph/conditional_intensity_matrix.py:ConditionalIntensityMatrix.compute_cim_coefficients"]}
{"id": "C70", "title": "What the parameters are when the data are not what was declared", "statement": "compute_parameters_for_node accepts any table of integers: a row is booked, for its duration and for its transition, on the cell that a fixed linear formula of its entries gives (negative transition cells are ignored), and the call either returns the matrices of all bookings or raises ValueError, the latter exactly when the formula leaves the arrays. No time is lost or invented. Data within the declared states are never refused exactly when the largest cell the cardinalities allow fits (for one parent: when it has no more states than the node). Finding: states beyond the declared cardinality are mostly accepted silently and booked on another parent configuration.", "quantifier": "every table of integers, network, node and parent set, every cardinality", "why_tests_cant": "needs all tables, including malformed ones", "anchors": ["PyCTBN/PyCTBN/estimators/parameters_estimator.py:ParametersEstimator.compute_parameters_for_node", "PyCTBN/PyCTBN/estimators/parameters_estimator.py:ParametersEstimator.compute_state_res_time_for_node", "PyCTBN/PyCTBN/estimators/parameters_estimator.py:ParametersEstimator.compute_state_transitions_for_a_node"]}
{"id": "C71", "title": "Life cycle of ParametersEstimator", "statement": "Whatever calls were made before on a NetworkGraph and the ParametersEstimator using it - in any order, with unknown labels, raising or not, with edges and nodes added and removed in between - graph.fast_init(v), estimator.fast_init(v), estimator.compute_parameters_for_node(v) returns exactly what a new graph with the current edges and a new estimator return (or raises the same exception). A returned SetOfCims is never changed by later calls and never returned a second time; each computation needs its own estimator.fast_init (a second computation raises AttributeError; estimator.fast_init before graph.fast_init - also after a node was removed - raises TypeError, and nothing is computed until graph.fast_init is called again). Finding: when the graph was initialised for another node, nothing is noticed and that node's residence times are returned under the wrong name.", "quantifier": "every structure, data set and finite history of calls", "why_tests_cant": "needs all histories of calls, including those that raise", "anchors": ["PyCTBN/PyCTBN/estimators/parameters_estimator.py:ParametersEstimator.fast_init", "PyCTBN/PyCTBN/estimators/parameters_estimator.py:ParametersEstimator.compute_parameters_for_node", "PyCTBN/PyCTBN/structure_graph/network_graph.py:NetworkGraph.fast_init", "PyCTBN/PyCTBN/structure_graph/set_of_cims.py:SetOfCims.build_cims"]}
{"id": "C72", "title": "Redundant variables and the order of the columns", "statement": "If in the data the state of a variable is a function of the states of some variables that the constraint-based estimator reports as parents of v, then it is not itself reported as a parent of v, unless that edge was given as known or a test gave up for lack of data (which cannot happen for binary variables). In particular a variable that never changes is nobody's parent, and of two copies of a variable at most one is a parent. Finding: which copy is reported depends on the order of the columns, for the same data.", "quantifier": "every data set, estimator, structure; all tests that accept a matrix against itself and against an empty one (as the code's do)", "why_tests_cant": "needs all data sets with such dependences and all search histories", "anchors": ["PyCTBN/PyCTBN/estimators/structure_constraint_based_estimator.py:StructureConstraintBasedEstimator.estimate_structure", "PyCTBN/PyCTBN/optimizers/constraint_based_optimizer.py:ConstraintBasedOptimizer.optimize_structure"]}
{"id": "C73", "title": "The names of the variables do not matter", "statement": "Renaming the variables (different names for different variables, everything else - columns, cardinalities, data - unchanged) renames the results and nothing else: the parameters of every node are identical, the constraint-based estimator returns the same edges under the new names (in both modes, in the same order) with the same adjacency matrix and spurious edges, the score-based estimator does so given the same random draws; if a call raises, the renamed call raises the same exception.", "quantifier": "every structure, data set, known edges, graph, tests, score, draws, search parameters and injective renaming", "why_tests_cant": "needs all inputs and all renamings; label comparisons and dictionary look-ups are spread over the whole code", "anchors": ["PyCTBN/PyCTBN/structure_graph/structure.py:Structure", "PyCTBN/PyCTBN/structure_graph/network_graph.py:NetworkGraph.fast_init", "PyCTBN/PyCTBN/estimators/structure_constraint_based_estimator.py:StructureConstraintBasedEstimator.estimate_structure", "PyCTBN/PyCTBN/estimators/structure_score_based_estimator.py:StructureScoreBasedEstimator.estimate_structure"]}
{"id": "C74", "title": "The unit of time", "statement": "Expressing the clocks in another unit (all readings multiplied by q > 0) together with tau_xu (multiplied by q) lowers every FamScore of a variable by the same amount, ln q per observed transition of that variable; hence the score-based estimator returns the same edges for the same random draws. Finding: nothing else is free of the unit. No off-diagonal intensity is the old one divided by q unless q = 1 (the smoothing adds one unit of time, whatever the unit), and the constraint-based estimator may return no edge in one unit and an edge in another for the same data.", "quantifier": "every legal data set of variables with equal cardinalities, every q, hyper-parameters, known edges, draws and search parameters; for the finding, every pair of quantile functions such that 1/3 lies between the quantiles of F(4,2) used", "why_tests_cant": "needs all data sets, units and search histories", "anchors": ["PyCTBN/PyCTBN/estimators/fam_score_calculator.py:FamScoreCalculator.get_fam_score", "PyCTBN/PyCTBN/estimators/structure_score_based_estimator.py:StructureScoreBasedEstimator.estimate_structure", "PyCTBN/PyCTBN/structure_graph/conditional_intensity_matrix.py:ConditionalIntensityMatrix.compute_cim_coefficients", "PyCTBN/PyCTBN/estimators/structure_constraint_based_estimator.py:StructureConstraintBasedEstimator.independence_test"]}
{"id": "C75", "title": "The coding of the states", "statement": "Numbering the states of the variables differently (a permutation of each variable's states, applied to the whole data set) renumbers the rows and columns of the estimated matrices and the parent configurations, and changes nothing else: residence times, counts and intensities are the same numbers. The score-based estimator returns the same edges for the same draws, and every single independence test gives the same answer. For variables with at most two states, or a threshold of at most 0, the constraint-based estimator returns the same edges. Finding: otherwise it need not. A failing test that stops at a configuration with too little data also marks the edge as not removable, and which configuration is met first depends on the numbering; there are data of five three-state variables where interchanging two names of states decides whether an edge is returned.", "quantifier": "every legal data set, every permutation of each variable's states, every network, node, parent set, hyper-parameters, known edges, draws, threshold, and quantile functions", "why_tests_cant": "needs all data sets, permutations and search histories", "anchors": ["PyCTBN/PyCTBN/estimators/parameters_estimator.py:ParametersEstimator.compute_parameters_for_node", "PyCTBN/PyCTBN/estimators/fam_score_calculator.py:FamScoreCalculator.get_fam_score", "PyCTBN/PyCTBN/estimators/structure_score_based_estimator.py:StructureScoreBasedEstimator.estimate_structure", "PyCTBN/PyCTBN/estimators/structure_constraint_based_estimator.py:StructureConstraintBasedEstimator.complete_test"]}
{"id": "C76", "title": "Redundant variables and the score-based estimator", "statement": "A further parent whose state is, in the data, a function of the states of the node's other parents leaves its FamScore exactly unchanged. Hence, when max_parents is not given, a variable that is a function of known parents of v (a variable that never changes, if there are none) is not reported as a parent of v unless its edge is known, and of two variables that determine each other at most one is reported unless both are known: for both optimizers, all settings and all random draws. Findings: (1) a redundant variable that happens to be tried before the variable it is a function of stays, since dropping it is no strict improvement: the draws decide whether {W} or {U, W} is returned although U is a function of W. (2) with max_parents a variable that never changes can take the place of a known parent.", "quantifier": "every data set of variables with equal cardinalities, known edges, hyper-parameters, log-gamma function, optimizer settings and draws", "why_tests_cant": "needs all data sets with such dependences and all search histories", "anchors": ["PyCTBN/PyCTBN/estimators/fam_score_calculator.py:FamScoreCalculator.get_fam_score", "PyCTBN/PyCTBN/estimators/structure_score_based_estimator.py:StructureScoreBasedEstimator.estimate_structure", "PyCTBN/PyCTBN/optimizers/hill_climbing_search.py:HillClimbing.optimize_structure", "PyCTBN/PyCTBN/optimizers/tabu_search.py:TabuSearch.optimize_structure"]}
{"id": "C77", "title": "The significance levels", "statement": "Lowering the significance levels makes every single independence test at least as willing to accept: a test that accepts independence still does. For binary variables a variable that some test separates from v given variables that are all reported as parents of v is not reported itself, whatever lower level is used (unless its edge is known), and with two variables a lower level never adds an edge. Finding: with three or more variables it can. There are data of three binary variables for which lowering the level of the F test from 0.1 to 0.05 replaces the edge W -> X by U -> X; an edge that is new at a lower level is always one that was rejected given variables that are no longer reported.", "quantifier": "every data set of variables with equal cardinalities, pair of levels, monotone quantile functions, threshold, known edges and execution mode", "why_tests_cant": "needs all data sets, all levels and all search histories", "anchors": ["PyCTBN/PyCTBN/estimators/structure_constraint_based_estimator.py:StructureConstraintBasedEstimator.independence_test", "PyCTBN/PyCTBN/estimators/structure_constraint_based_estimator.py:StructureConstraintBasedEstimator.estimate_structure", "PyCTBN/PyCTBN/optimizers/constraint_based_optimizer.py:ConstraintBasedOptimizer.optimize_structure"]}
{"id": "C78", "title": "The text of the files", "statement": "What is written is read back. json.load accepts exactly the JSON texts, in any layout, and raises a ValueError on everything else; the text dumped for a document is one line of printable ASCII and is read as the same document, whatever characters the labels contain, so two different documents never have the same text. Hence an importer given the file that out_file wrote gets the document that was exported - the learner the same structure and trajectories as from the DataFrames, the generator the same CIMs - and the file that save_results wrote holds the nodes and edges of the estimated graph. Other files are not touched. A path without a file makes the importer raise FileNotFoundError.", "quantifier": "every document, label, exporter, graph, path and previous state of the files; every number format in which the numbers of the document are printed as JSON numbers and read back as the same numbers", "why_tests_cant": "needs all documents and all strings", "anchors": ["PyCTBN/PyCTBN/utility/json_exporter.py:JsonExporter.out_file", "PyCTBN/PyCTBN/utility/json_importer.py:JsonImporter.read_json_file", "PyCTBN/PyCTBN/estimators/structure_estimator.py:StructureEstimator.save_results"]}
{"id": "C79", "title": "Interrupted writing", "statement": "No interruption of the program makes it read wrong data later. An exporter whose document cannot be built raises before any file is touched. If the program is stopped while out_file or save_results is writing, every other file is as it was and the file itself has its old content, or is rejected with a ValueError, or is complete; after any history of such calls, stopped anywhere, every file holds the last document written to it or its initial content, except possibly the one being written. Finding: writing is not atomic; whatever the file held before, there is a point at which neither the old nor the new document can be read.", "quantifier": "every history of out_file and save_results calls, every crash point, every initial state of the files", "why_tests_cant": "needs all crash points and histories", "anchors": ["PyCTBN/PyCTBN/utility/json_exporter.py:JsonExporter.out_file", "PyCTBN/PyCTBN/utility/json_importer.py:JsonImporter.read_json_file", "PyCTBN/PyCTBN/estimators/structure_estimator.py:StructureEstimator.save_results"]}
{"id": "C80", "title": "The order and the choice of the columns", "statement": "import_data with header_column imports exactly the named columns in the order in which they are named, and nothing else in the DataFrames plays a part: the structure and trajectories are those of the DataFrames that contain only these columns. Naming all the columns is the same as naming none; a name that is no column is a KeyError, an empty list a RuntimeError. For any selection and order of the columns, the estimated matrix of every joint state of a node's parents, the FamScore and the answer of every independence test are the same as from the whole data, as long as the variables involved are selected. With the columns in another order the score-based estimator can return exactly the same sets of edges (for suitable draws). (The constraint-based estimator need not: see C72.)", "quantifier": "every legal data set, every selection and order of its columns, every network, node, separating set, hyper-parameters, known edges and draws", "why_tests_cant": "needs all data sets, column orders and search histories", "anchors": ["PyCTBN/PyCTBN/utility/sample_importer.py:SampleImporter.import_data", "PyCTBN/PyCTBN/utility/abstract_importer.py:AbstractImporter.compute_row_delta_in_all_samples_frames", "PyCTBN/PyCTBN/estimators/parameters_estimator.py:ParametersEstimator.compute_parameters_for_node", "PyCTBN/PyCTBN/estimators/fam_score_calculator.py:FamScoreCalculator.get_fam_score", "PyCTBN/PyCTBN/estimators/structure_score_based_estimator.py:StructureScoreBasedEstimator.estimate_structure"]}
{"id": "C81", "title": "The algorithm is CTPC", "statement": "The constraint-based estimator is the CTPC algorithm, run independently for every variable on nothing but the answers of the single tests: start from all other variables; for separating sets of 0, 1, 2, ... members, while there are more candidates than that, go through the candidates in the order of the columns, skip the protected ones, and try all sets of other current candidates in order until one separates the candidate from the variable; then drop it. Known edges are protected, and so is from the next size on every candidate one of whose tests gave up for lack of data. The edges into v are exactly the candidates left, in every execution mode. On later calls of the same estimator the same algorithm is run, but what the earlier sequential calls protected stays protected (calls in a pool of processes leave no protection behind).", "quantifier": "every data set of variables with equal cardinalities, every statistical test, threshold, known edges and history of calls in any execution modes", "why_tests_cant": "needs all data sets, all histories of calls and all possible sequences of test answers", "anchors": ["PyCTBN/PyCTBN/estimators/structure_constraint_based_estimator.py:StructureConstraintBasedEstimator.estimate_structure", "PyCTBN/PyCTBN/optimizers/constraint_based_optimizer.py:ConstraintBasedOptimizer.optimize_structure", "PyCTBN/PyCTBN/estimators/structure_constraint_based_estimator.py:StructureConstraintBasedEstimator.complete_test"]}
{"id": "C82", "title": "Variables that play no part", "statement": "If every variable outside a selection of the columns passes the first test against v (without separating set) and no known edge leads from it to v, then the constraint-based estimator returns the same edges into v from the selected columns (in the same order) as from all the data. In particular, columns of binary data that never change can be dropped: the edges among the other variables stay what they are.", "quantifier": "every legal data set of variables with equal cardinalities, selection of columns, statistical test, threshold, known edges and pair of execution modes", "why_tests_cant": "needs all data sets, all selections and all sequences of test answers", "anchors": ["PyCTBN/PyCTBN/estimators/structure_constraint_based_estimator.py:StructureConstraintBasedEstimator.estimate_structure", "PyCTBN/PyCTBN/optimizers/constraint_based_optimizer.py:ConstraintBasedOptimizer.optimize_structure", "PyCTBN/PyCTBN/utility/abstract_importer.py:AbstractImporter.compute_row_delta_in_all_samples_frames"]}
{"id": "C83", "title": "Calling the constraint-based estimator again", "statement": "estimate_structure can be called any number of times, in any modes, on one estimator, and never raises. A call in a pool of processes leaves no trace: the next call returns the same edges. A sequential call can change the answer of later calls (see C26), but only by protecting edges one of whose tests gave up for lack of data, and this comes to an end: with N variables the answer changes at most N(N-1) times over the life of the estimator, and not at all after N(N-1) sequential calls. For binary variables all calls return the same edges.", "quantifier": "every estimator over data of variables with equal cardinalities, every statistical test and threshold, every history of calls in any modes", "why_tests_cant": "needs all data sets and unbounded histories of calls", "anchors": ["PyCTBN/PyCTBN/estimators/structure_constraint_based_estimator.py:StructureConstraintBasedEstimator.estimate_structure", "PyCTBN/PyCTBN/estimators/structure_constraint_based_estimator.py:StructureConstraintBasedEstimator.complete_test", "PyCTBN/PyCTBN/optimizers/constraint_based_optimizer.py:ConstraintBasedOptimizer.optimize_structure"]}
{"id": "C84", "title": "Several estimators on one SamplePath", "statement": "Estimators built on the same SamplePath do not influence each other: whatever calls are interleaved, every object returns the same edges, matrices and saved graphs as if the other objects did not exist. A score-based estimator has no memory (with the same random numbers a call returns the same edges, in a pool or not); adjacency_matrix and save_results always show the last successful estimate of that object, also after calls that raised. But estimate_structure has a side effect on the SamplePath (findings): the first call, even one that raises, erases the known edges of the shared structure. From then on precision and recall cannot be computed, spurious_edges is empty for every object, and parameters learned through NetworkGraph(sample_path.structure) ignore all parents: one CIM per variable instead of one per configuration of the known parents.", "quantifier": "every sample path, every number of constraint-based and score-based estimators, every interleaving of constructions and calls including calls that raise, every parameter and random draw", "why_tests_cant": "needs all interleavings of calls on any number of objects", "anchors": ["PyCTBN/PyCTBN/estimators/structure_estimator.py:StructureEstimator", "PyCTBN/PyCTBN/estimators/structure_constraint_based_estimator.py:StructureConstraintBasedEstimator.estimate_structure", "PyCTBN/PyCTBN/estimators/structure_score_based_estimator.py:StructureScoreBasedEstimator.estimate_structure", "PyCTBN/PyCTBN/structure_graph/sample_path.py:SamplePath", "PyCTBN/PyCTBN/structure_graph/network_graph.py:NetworkGraph.fast_init", "PyCTBN/PyCTBN/structure_graph/structure.py:Structure.clean_structure_edges"]}
{"id": "C85", "title": "Estimated intensities and observed rates", "statement": "Every entry of an estimated CIM, on the diagonal or not, is the average of the observed rate (transitions per unit of time; on the diagonal minus the rate of leaving) weighted with the time spent in the state, and of the number 1 weighted with one unit of time. Its error is therefore exactly |1 - rate| / (time + 1): it falls below any bound once enough time has been observed, and goes to 0 when the same trajectories are given n times. An off-diagonal entry is the maximum likelihood estimate from the data plus one imaginary transition and one imaginary unit of time, and is positive; two data sets together give an entry that follows from those of each. Findings: a state never visited under a parent configuration gets 1 everywhere, also on the diagonal; a diagonal entry is positive when the state was never left and 0 when it was left once.", "quantifier": "every legal list of trajectories with non-decreasing clocks, every variable whose parents have its cardinality, every parent configuration, every pair of states, every number of copies", "why_tests_cant": "needs all data sets and limits", "anchors": ["PyCTBN/PyCTBN/estimators/parameters_estimator.py:ParametersEstimator.compute_parameters_for_node", "PyCTBN/PyCTBN/structure_graph/conditional_intensity_matrix.py:ConditionalIntensityMatrix.compute_cim_coefficients", "PyCTBN/PyCTBN/structure_graph/set_of_cims.py:SetOfCims.build_cims"]}
{"id": "C86", "title": "Cost of the constraint-based search", "statement": "The independence tests performed to find the parents of one variable out of m others: every question (is p separated from v by S) is about distinct variables and is asked at most once, sets are tried by increasing size, a variable once separated occurs in no later test, protected variables are not tested, and the parents returned are exactly the variables no test separated; a parent that is unprotected at the end has been tested against every set of the other parents. Hence there are at most m 2^(m-1) tests, at most m + k 2^(k-1) if the unconditional tests leave k variables, at least k 2^(k-1) if k unprotected parents are found, and exactly m 2^(m-1) if all are. The parameters of a parent set are estimated once, when the first test needs them, so at most 2^m times. A call of estimate_structure on n variables performs at most n (n-1) 2^(n-2) tests, in both modes.", "quantifier": "every data set, statistical test, threshold, known edges and state of the estimator", "why_tests_cant": "needs all data sets and all possible sequences of test answers; the bounds are for every number of variables", "anchors": ["PyCTBN/PyCTBN/optimizers/constraint_based_optimizer.py:ConstraintBasedOptimizer.optimize_structure", "PyCTBN/PyCTBN/estimators/structure_constraint_based_estimator.py:StructureConstraintBasedEstimator.complete_test", "PyCTBN/PyCTBN/estimators/structure_estimator.py:StructureEstimator.generate_possible_sub_sets_of_size", "PyCTBN/PyCTBN/utility/cache.py:Cache"]}
{"id": "C87", "title": "Variables with few observed changes", "statement": "A variable that never changes in the data: adding parents never raises its score, so the score-based estimator (any search, random choices, iterations and patience) returns its known parents and no others, provided max_parents is not set or no edge into it is known; so does the constraint-based estimator if the variables are binary. With k >= 3 states the constraint-based test given a set of b variables gives up (answers dependent and protects the edge) whenever the variable changes fewer than threshold (k-1)^2 k^(b+1) times; a missing edge has therefore been separated by a set small enough for the number of observed changes, and a variable that changes fewer than threshold (k-1)^2 k times (300 times with three states and the default threshold) gets every other variable as a parent, whatever the data and the tests (finding).", "quantifier": "every legal data set with non-decreasing clocks of variables with equal cardinalities, every variable of it, every known edges, hyper-parameters, random draws, threshold, statistical test and execution mode", "why_tests_cant": "needs all data sets, parent sets and search histories; the score comparison is a statement about real logarithms", "anchors": ["PyCTBN/PyCTBN/estimators/structure_score_based_estimator.py:StructureScoreBasedEstimator.estimate_structure", "PyCTBN/PyCTBN/estimators/fam_score_calculator.py:FamScoreCalculator.get_fam_score", "PyCTBN/PyCTBN/estimators/structure_constraint_based_estimator.py:StructureConstraintBasedEstimator.independence_test", "PyCTBN/PyCTBN/estimators/structure_constraint_based_estimator.py:StructureConstraintBasedEstimator.compute_thumb_value", "PyCTBN/PyCTBN/optimizers/hill_climbing_search.py:HillClimbing.optimize_structure", "PyCTBN/PyCTBN/optimizers/tabu_search.py:TabuSearch.optimize_structure"]}
{"id": "C88", "title": "Enough data: what the score says about one more parent and what the search then returns", "statement": "For a data set repeated often enough (n copies, n at least some N): adding p to the parents K of v raises the score of v if, given the states of K, some observed rate of v depends on the state of p; it lowers the score if no rate depends on p although two of its states can be compared; it leaves the score unchanged, for every n, if no two of its states can be compared. Hence a tabu search that does not give up too early (no max_parents, default or long enough tabu_length, tabu_rules_duration and patience, at least c 2^c iterations for c = number of variables - 1) returns for every variable a parent set given which no other variable makes a difference, and in which every parent that was not known makes a difference given the others (or could not be compared), whatever the random numbers. If the data single out a parent set (as long as a member is missing some member makes a difference, and nothing else does once all are there) it has the strictly highest score of all parent sets and is what the estimator returns; if they do so for every variable, estimate_structure returns exactly that network.", "quantifier": "every legal data set with increasing clocks of variables with equal cardinalities (at least 2), every positive tau and alpha, every function satisfying the equation of log gamma, every known edges contained in the network, every random draws and execution mode", "why_tests_cant": "an asymptotic statement over all data sets, all parent sets and all histories of the search; no finite number of runs can establish a limit", "anchors": ["PyCTBN/PyCTBN/estimators/fam_score_calculator.py:FamScoreCalculator.get_fam_score", "PyCTBN/PyCTBN/estimators/structure_score_based_estimator.py:StructureScoreBasedEstimator.estimate_structure", "PyCTBN/PyCTBN/optimizers/tabu_search.py:TabuSearch.optimize_structure"]}
{"id": "C89", "title": "Enough data: what the constraint-based estimator returns", "statement": "For a data set repeated often enough (n copies, n at least some N), of binary variables or of variables all of whose transitions are seen in every situation: every independence test of v against p given K answers True exactly if no observed rate of v depends on the state of p given the states of K, and no test gives up. Hence every variable left out of the parents of v is independent of v given some set of other variables, and every parent reported (and not known before) makes a difference given any set of the other reported parents. If the data are faithful to a parent set (each member makes a difference whatever else is known, nothing else does once all are known) exactly that set is returned; if they are for every variable, estimate_structure returns exactly that network, and the score-based estimator with a thorough tabu search returns the same. But (finding) a variable that makes no difference on its own is never reported however much data there are and whatever difference it makes once other variables are known (e.g. v changes iff two others differ).", "quantifier": "every legal data set with increasing clocks of variables with equal cardinalities (at least 2), every threshold, every significance levels and quantile functions such that the F quantiles tend to 1 more slowly than 1/n, every known edges contained in the network, every execution mode", "why_tests_cant": "an asymptotic statement over all data sets, all separating sets and all sequences of test answers; no finite number of runs can establish a limit", "anchors": ["PyCTBN/PyCTBN/estimators/structure_constraint_based_estimator.py:StructureConstraintBasedEstimator.independence_test", "PyCTBN/PyCTBN/estimators/structure_constraint_based_estimator.py:StructureConstraintBasedEstimator.complete_test", "PyCTBN/PyCTBN/estimators/structure_constraint_based_estimator.py:StructureConstraintBasedEstimator.estimate_structure", "PyCTBN/PyCTBN/optimizers/constraint_based_optimizer.py:ConstraintBasedOptimizer.optimize_structure"]}
{"id": "C90", "title": "What the constraint-based estimator can and cannot see", "statement": "For a data set repeated often enough (n copies, n at least some N) and no assumption about which transitions are observed: a test of v against p given K answers True exactly if (a) given K, v leaves no state faster or slower depending on p, and from no state from which all other states are reached it goes to other states at different rates depending on p, and (b) with three or more states, v changes at least once in every combination of states of K; it gives up only if (b) fails. Hence the result of the search settles: estimate_structure returns one and the same set of edges from some amount of data on. What is left out was separated by such a set; what is reported makes a visible difference given every set of the other reported parents for which (b) holds, unless (b) fails somewhere. The parents of v are recovered exactly if they can be seen whatever else is known, nothing else can once they are known, and v changes in every combination of the other variables' states. Findings: a dependence that only concerns where v goes, from states not all of whose successors occur, is never seen however much data there are; with three or more states, combinations of states that do not occur (or in which v does not change) make the tests given those variables give up, so a variable that merely correlates with the true parent is reported for ever.", "quantifier": "every legal data set with increasing clocks of variables with equal cardinalities (at least 2), every threshold above 0, every significance levels and quantile functions such that the F quantiles tend to 1 more slowly than 1/n, every prior and known edges, every execution mode", "why_tests_cant": "an asymptotic statement over all data sets, all separating sets and all sequences of test answers; no finite number of runs can establish a limit", "anchors": ["PyCTBN/PyCTBN/estimators/structure_constraint_based_estimator.py:StructureConstraintBasedEstimator.independence_test", "PyCTBN/PyCTBN/estimators/structure_constraint_based_estimator.py:StructureConstraintBasedEstimator.complete_test", "PyCTBN/PyCTBN/estimators/structure_constraint_based_estimator.py:StructureConstraintBasedEstimator.compute_thumb_value", "PyCTBN/PyCTBN/optimizers/constraint_based_optimizer.py:ConstraintBasedOptimizer.optimize_structure"]}
{"id": "C91", "title": "The limits of the score-based search", "statement": "With the same random numbers, a search with more iterations and more patience first does exactly what the shorter search does, step by step, and then possibly goes on; it does not end with a worse score, and if it does return then so does the shorter one. Limits that cannot be reached make no difference at all, to results or failures: a patience not below the number of iterations, a max_parents not below the number of known parents plus candidates, a tabu_length not below the number of candidates; so for a whole call of estimate_structure, in both modes, max_parents and tabu_length not below the number of variables and patience not below iterations_number are as good as None.", "quantifier": "every data set, node, known edges, score function with a strict order, parameters and sequence of random numbers", "why_tests_cant": "relates two runs for every pair of limits and every random sequence", "anchors": ["PyCTBN/PyCTBN/optimizers/hill_climbing_search.py:HillClimbing.optimize_structure", "PyCTBN/PyCTBN/optimizers/tabu_search.py:TabuSearch.optimize_structure", "PyCTBN/PyCTBN/estimators/structure_score_based_estimator.py:StructureScoreBasedEstimator.estimate_structure"]}
{"id": "C92", "title": "Telling the estimators what they would find anyway", "statement": "Edges that the constraint-based estimator reports can be given to it as known edges, some or all of them: it reports the same edges again, in either mode; in particular its own result given back as known edges is a fixed point. Started again from its own result as known edges, hill climbing or tabu search does not return a worse score, whatever the limits and the random numbers. Finding: a known edge that the constraint-based estimator would not find can make it drop another one that it did find.", "quantifier": "every legal data set of variables with equal cardinalities, every statistical test, threshold, known edges and execution mode; for the searches every data set, score function with a strict order, parameters and random numbers", "why_tests_cant": "relates two runs for every data set and every set of known edges", "anchors": ["PyCTBN/PyCTBN/optimizers/constraint_based_optimizer.py:ConstraintBasedOptimizer.optimize_structure", "PyCTBN/PyCTBN/estimators/structure_estimator.py:StructureEstimator.build_removable_edges_matrix", "PyCTBN/PyCTBN/estimators/structure_constraint_based_estimator.py:StructureConstraintBasedEstimator.estimate_structure", "PyCTBN/PyCTBN/optimizers/hill_climbing_search.py:HillClimbing.optimize_structure", "PyCTBN/PyCTBN/optimizers/tabu_search.py:TabuSearch.optimize_structure"]}
{"id": "C93", "title": "Which objects a call on a Structure or a NetworkGraph affects", "statement": "A Structure keeps references to the list of labels and the list of edges it was given, a NetworkGraph to its Structure. What a structure or graph says is changed only by calls on it, on the Structure it was made with, or - for remove_node, add_edge and remove_edge, which work in place - on a Structure that was given the same list object; clean_structure_edges and all graph calls except remove_node never affect another object. The independence tests of the constraint-based estimator work on objects of their own and leave everything that existed before unchanged. Findings: NetworkGraph.remove_node(n) changes the Structure for every other graph made with it (for instance from sample_path.structure): such a graph then raises KeyError when initialised for a child of n, and for the other nodes is initialised as if n did not exist. Structure.remove_node(n) on one of two structures that share the list of labels leaves the other with one label too few: every label after n gets the dataset index and the cardinality of its predecessor, silently. All graphs made by one NetworkGenerator, and the generator itself, share one list, so removing a node from an earlier graph does this to a later one.", "quantifier": "every heap of lists, structures and graphs with any sharing, every history of calls on them (including calls that raise)", "why_tests_cant": "needs all sharing patterns and all histories of calls on all objects", "anchors": ["PyCTBN/PyCTBN/structure_graph/structure.py:Structure.remove_node", "PyCTBN/PyCTBN/structure_graph/structure.py:Structure.add_edge", "PyCTBN/PyCTBN/structure_graph/structure.py:Structure.remove_edge", "PyCTBN/PyCTBN/structure_graph/structure.py:Structure.clean_structure_edges", "PyCTBN/PyCTBN/structure_graph/network_graph.py:NetworkGraph.remove_node", "PyCTBN/PyCTBN/structure_graph/network_graph.py:NetworkGraph.fast_init", "PyCTBN/PyCTBN/structure_graph/network_generator.py:NetworkGenerator.generate_graph", "PyCTBN/PyCTBN/estimators/structure_constraint_based_estimator.py:StructureConstraintBasedEstimator.complete_test"]}
{"id": "C94", "title": "The threshold of the rule of thumb", "statement": "Raising thumb_threshold turns the outcome of some single tests into giving up (answering dependent and protecting the edge) and changes no other outcome. For binary variables, and for thresholds that are not positive, no test ever gives up, the threshold has no effect and all calls on the estimator return the same edges; more generally two thresholds give the same edges if no test gives up under the higher one. For three or more states there is a threshold from which on every estimate is the complete graph. With two variables a higher threshold never loses an edge. Finding: with more variables it can (a parent kept for lack of data enters the separating sets); an edge lost that way was separated, under both thresholds, by a set that is not part of the answer for the lower one, or had been kept only because one of its tests gave up.", "quantifier": "every legal data set of variables with equal cardinalities, every statistical test, prior and known edges, pair of thresholds and execution mode; a witness for the finding", "why_tests_cant": "relates two runs for every data set and every pair of thresholds", "anchors": ["PyCTBN/PyCTBN/estimators/structure_constraint_based_estimator.py:StructureConstraintBasedEstimator.independence_test", "PyCTBN/PyCTBN/estimators/structure_constraint_based_estimator.py:StructureConstraintBasedEstimator.complete_test", "PyCTBN/PyCTBN/estimators/structure_constraint_based_estimator.py:StructureConstraintBasedEstimator.compute_thumb_value", "PyCTBN/PyCTBN/optimizers/constraint_based_optimizer.py:ConstraintBasedOptimizer.optimize_structure"]}
{"id": "C95", "title": "Row labels of the imported DataFrames", "statement": "Whatever row labels (pandas index) the DataFrames given to SampleImporter carry, the data set learned from holds exactly the pairs of consecutive observations whose first row has a label different from its frame's last row's label. Hence the labels are irrelevant - same structure, same data set, so the same parameters and networks - exactly if no frame's last label occurs twice in that frame, in particular whenever labels are distinct (default numbering, slices of a larger frame, time stamps). Finding: otherwise every earlier row repeating the last label is silently lost with its dwell time and transition (frames glued by concat without ignore_index), and if the rows of each frame all carry one label SamplePath raises RuntimeError.", "quantifier": "every list of trajectories in range with every row labels, every variables, cardinalities and prior edges", "why_tests_cant": "quantifies over all index labellings of all data sets", "anchors": ["PyCTBN/PyCTBN/utility/abstract_importer.py:AbstractImporter.compute_row_delta_sigle_samples_frame", "PyCTBN/PyCTBN/utility/abstract_importer.py:AbstractImporter.compute_row_delta_in_all_samples_frames", "PyCTBN/PyCTBN/utility/sample_importer.py:SampleImporter.import_data", "PyCTBN/PyCTBN/structure_graph/sample_path.py:SamplePath.__init__", "PyCTBN/PyCTBN/structure_graph/sample_path.py:SamplePath.build_trajectories"]}
{"id": "C96", "title": "Variable names that collide with the importer's column names", "statement": "Importing trajectories of variables with distinct names, none of them 'Time', never fails because of the names, and the data set is the one the user means - for all data - exactly if no variable is named like another one followed by 'S'. Finding: with such a pair v and vS the import silently shows v's next state as vS's current state (next states and times stay right), so vS always looks as if it predicted v's transitions perfectly.", "quantifier": "every list of distinct variable names (any strings), cardinalities, prior edges and trajectories", "why_tests_cant": "quantifies over all names and all data sets; the failure is silent", "anchors": ["PyCTBN/PyCTBN/utility/abstract_importer.py:AbstractImporter.compute_row_delta_sigle_samples_frame", "PyCTBN/PyCTBN/utility/abstract_importer.py:AbstractImporter.compute_row_delta_in_all_samples_frames", "PyCTBN/PyCTBN/utility/sample_importer.py:SampleImporter.import_data", "PyCTBN/PyCTBN/structure_graph/sample_path.py:SamplePath.build_trajectories"]}
{"id": "C97", "title": "Which parts of the imported DataFrames matter", "statement": "What SamplePath learns from depends only on the trajectories the DataFrames hold: the order of the columns after Time (from the second frame on; the first frame's header fixes the variables) and any further columns make no difference, and of a state only its integer part, rounded toward zero, is used. A frame that lacks one of the first frame's variables is refused with KeyError, and so are frames without a column called Time. Finding: states that are not whole numbers are truncated silently, so 1.75 and 1 are the same state and -0.5 counts as state 0.", "quantifier": "every list of DataFrames holding trajectories in whatever form, every variables, cardinalities and prior edges", "why_tests_cant": "quantifies over all data sets and all the frames that represent them", "anchors": ["PyCTBN/PyCTBN/utility/abstract_importer.py:AbstractImporter.compute_row_delta_sigle_samples_frame", "PyCTBN/PyCTBN/utility/abstract_importer.py:AbstractImporter.compute_row_delta_in_all_samples_frames", "PyCTBN/PyCTBN/utility/sample_importer.py:SampleImporter.import_data", "PyCTBN/PyCTBN/utility/sample_importer.py:SampleImporter.build_sorter", "PyCTBN/PyCTBN/structure_graph/sample_path.py:SamplePath.build_trajectories"]}
{"id": "C98", "title": "Declaring states that never occur", "statement": "Declaring more states for the variables than the data have (all with the same number) leaves the imported data set and, in every situation that can occur, the residence times, counts and intensities unchanged; the intensity of every transition into a surplus state is 1/(T+1), and in situations that cannot occur all counts are 0 and all intensities 1. Finding: if every variable has a declared state in which it is never observed - in particular whenever one state too many is declared - the chi-square test is switched off completely: the constraint-based estimator returns the same edges whatever the level and the quantiles of that test. For a single such variable every independence test on it compares the exit rates only; where it goes to makes no difference. Statistics that are rejected with the three states that occur are accepted with a fourth one declared.", "quantifier": "every legal data set, numbers of declared states, prior and known edges, node, quantile functions, levels, threshold and execution mode; a witness for the lost rejection", "why_tests_cant": "relates two runs for every data set; the failure is silent", "anchors": ["PyCTBN/PyCTBN/estimators/parameters_estimator.py:ParametersEstimator.compute_parameters_for_node", "PyCTBN/PyCTBN/structure_graph/conditional_intensity_matrix.py:ConditionalIntensityMatrix.compute_cim_coefficients", "PyCTBN/PyCTBN/estimators/structure_constraint_based_estimator.py:StructureConstraintBasedEstimator.independence_test", "PyCTBN/PyCTBN/estimators/structure_constraint_based_estimator.py:StructureConstraintBasedEstimator.estimate_structure"]}
{"id": "C99", "title": "The score when declared states never occur", "statement": "Declaring the same data with k' > k states for every variable instead of k leaves FamScore, for every node and parent set, the log marginal likelihood of the very same visits (dwell times and destinations); only the prior weight of a destination changes from alpha/(k-1) to alpha/(k'-1). Surplus states and parent configurations that contain them contribute nothing. Hence no score rises, and the score of every node that changes its state at least once drops strictly - by at most ln((k'-1)/(k-1)) per observed change of the node, whatever the parent set and the hyperparameters. So a parent set that scores better than another by more than that bound under either declaration scores better under the other.", "quantifier": "every legal data set, numbers of declared states 2 <= k <= k', prior and candidate edges within the variables, node, positive hyperparameters, function lg satisfying the log-gamma equation", "why_tests_cant": "relates two runs for every data set and every pair of declarations, with real-valued scores", "anchors": ["PyCTBN/PyCTBN/estimators/fam_score_calculator.py:FamScoreCalculator.get_fam_score", "PyCTBN/PyCTBN/estimators/fam_score_calculator.py:FamScoreCalculator.marginal_likelihood_theta", "PyCTBN/PyCTBN/estimators/structure_score_based_estimator.py:StructureScoreBasedEstimator.get_score_from_graph", "PyCTBN/PyCTBN/estimators/parameters_estimator.py:ParametersEstimator.compute_parameters_for_node"]}
