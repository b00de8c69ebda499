(** Model of the parts of PyCTBN/PyCTBN/estimators/structure_estimator.py shared by both estimators
    (adjacency_matrix, spurious_edges, save_results) and of
    PyCTBN/PyCTBN/estimators/structure_score_based_estimator.py. *)
From Verif Require Import Base ModelStructure ModelGraph ModelCims ModelData ModelParams ModelCtpc ModelSearch.

(** ** structure_estimator.py *)

(** structure_estimator.py:125-131.  nx.adj_matrix is networkx 2.5 to_scipy_sparse_matrix: NetworkXError for an
    empty node list or repeated nodes; [index] is the position in the list; the edges leaving a listed node
    are visited in list order and those entering an unlisted node are skipped.  The weights are 1 and the
    matrix is converted to bool, so it is modelled as a boolean matrix from the start. *)
Definition adjacency_matrix (g : digraph) (nodes : list label) : result (list (list bool)) :=
  let n := length nodes in
  if n =? 0 then Err NetworkXError
  else if negb (length (set_of_list nodes) =? n) then Err NetworkXError
  else
    let es := filter (fun e => lmem (snd e) nodes)
                (flat_map (fun x => filter (fun e => String.eqb (fst e) x) (g_edges g)) nodes) in
    fold_left (fun acc e =>
                 let* m := acc in
                 let* i := py_index (fst e) nodes in
                 let* j := py_index (snd e) nodes in
                 mat_set m i j true)
              es (Ok (repeat (repeat false n) n)).

(** sample_path.py:88-90: bool(self._structure.edges) *)
Definition has_prior_net_structure (s : structure) : bool :=
  match edges_list s with [] => false | _ => true end.

(** networkx 2.5 difference(G, H): an empty copy of G with the edges of G that H lacks *)
Definition nx_difference (G H : digraph) : result digraph :=
  if lset_eqb (map fst (g_nodes G)) (map fst (g_nodes H)) then
    Ok (fold_left (fun r e => if g_has_edge H e then r else g_add_edge r e) (g_edges_view G)
                  (MkDigraph (g_nodes G) []))
  else Err NetworkXError.

(** structure_estimator.py:133-145; [s] is the sample path's structure, [g] the estimator's graph *)
Definition spurious_edges (s : structure) (g : digraph) : result (list edge) :=
  if negb (has_prior_net_structure s) then Ok []
  else
    let real := g_add_edges_from (g_add_nodes_from empty_digraph (nodes_labels s)) (edges_list s) in
    let* d := nx_difference real g in
    Ok (g_edges_view d).

(** structure_estimator.py:98-106 with networkx node_link_data: the nodes and links arrays of the JSON document
    (the attribute dictionaries are empty in the estimators' graphs; the document and its text are in ModelFiles) *)
Record node_link := MkNodeLink { nl_nodes : list label; nl_links : list edge }.
Definition save_results (g : digraph) : node_link := MkNodeLink (map fst (g_nodes g)) (g_edges_view g).

(** ** structure_score_based_estimator.py *)

(** lines 52-55 and structure_estimator.py:39-45.  The hyper-parameters tau_xu and alpha_xu are part of the
    [score] parameter below. *)
Record sb_estimator := MkSbEst {
  sb_struct : structure;          (* _sample_path.structure, also _nodes *)
  sb_traj : trajectory;           (* _sample_path.trajectories *)
  sb_matrix : list (list bool);   (* _removable_edges_matrix *)
  sb_graph : digraph }.           (* _complete_graph *)
Definition new_sb_estimator (s : structure) (t : trajectory) (tot : nat) (known : list edge)
  : result sb_estimator :=
  let* m := build_removable_edges_matrix s tot known in
  Ok (MkSbEst s t m (build_complete_graph (nodes_labels s))).

(** the search parameters handed to every node (lines 58-60, 93-98) *)
Record sb_params := MkSbParams {
  sp_max_parents : option nat; sp_iterations : nat; sp_patience : option nat;
  sp_tabu_length : option nat; sp_tabu_duration : option nat; sp_optimizer : string }.

(** what lines 141-157 print: precision and recall, or the exception caught *)
Inductive printed := PrintedScores (precision recall : Qc) | PrintedError (e : exn).

(** Python int / int *)
Definition py_div (a b : nat) : result Qc :=
  if b =? 0 then Err ZeroDivisionError
  else Ok (Qc_of_Z (Z.of_nat a) / Qc_of_Z (Z.of_nat b))%Qc.

(** set.difference *)
Definition edge_difference (a b : list edge) : list edge := filter (fun e => negb (emem e b)) a.

(** lines 137-157 *)
Definition precision_recall (true_edges found : list edge) : printed :=
  let fake := length (edge_difference found true_edges) in
  let missing := length (edge_difference true_edges found) in
  let tp := length true_edges - missing in
  match (let* p := py_div tp (tp + fake) in
         let* r := py_div tp (tp + missing) in Ok (p, r)) with
  | Ok (p, r) => PrintedScores p r
  | Err e => PrintedError e
  end.

Section Score.
Variable Sc : Type.
Variable score : list cim -> result Sc.     (* FamScoreCalculator.get_fam_score with tau_xu, alpha_xu *)
Variable gt : Sc -> Sc -> bool.

(** lines 167-211; any optimizer name other than 'tabu' selects hill climbing.  [draws]: the random numbers
    this search consumes. *)
Definition estimate_parents (est : sb_estimator) (draws : nat -> nat) (v : label) (p : sb_params)
  : result (list edge) :=
  if String.eqb (sp_optimizer p) "tabu" then
    let* (es, _) := tabu_search Sc score gt (sb_traj est) draws (sb_struct est) (sb_matrix est) v
        (sp_max_parents p) (sp_iterations p) (sp_patience p) (sp_tabu_length p) (sp_tabu_duration p) in
    Ok es
  else
    let* (es, _) := hill_climbing Sc score gt (sb_traj est) draws (sb_struct est) (sb_matrix est) v
        (sp_max_parents p) (sp_iterations p) (sp_patience p) in
    Ok es.

(** lines 122-130: leaving the [with] block waits for every task, so one task that never returns blocks the
    call; the results are then read in submission order and the first exception is re-raised *)
Definition pool_map {A} (f : label -> result A) (nodes : list label) : result (list A) :=
  if existsb (fun v => match f v with Err Blocked => true | _ => false end) nodes then Err Blocked
  else res_map f nodes.

(** lines 58-164.  [draws v]: the numbers consumed by the search for node v (in the sequential mode they are
    consecutive segments of one generator, in the pool they come from each worker's copy; both are covered
    by arbitrary streams).  The searches do not change the estimator.  [processes]: processes_number; the
    value 0 makes ProcessPoolExecutor raise.  A call that raises has also erased the structure's edges;
    the model does not return a state in that case. *)
Definition sb_estimate_structure (est : sb_estimator) (draws : label -> nat -> nat) (p : sb_params)
  (disable_multiprocessing : bool) (processes : option nat)
  : result (list edge * printed * sb_estimator) :=
  let true_edges := edge_set_of (edges_list (sb_struct est)) in
  let est1 := MkSbEst (clean_structure_edges (sb_struct est)) (sb_traj est) (sb_matrix est) (sb_graph est) in
  let nodes := nodes_labels (sb_struct est1) in
  let f := fun v => estimate_parents est1 (draws v) v p in
  let* ess :=
    if disable_multiprocessing then res_map f nodes
    else match processes with
         | Some 0 => Err ValueError
         | _ => pool_map f nodes
         end in
  let es := edge_set_of (concat ess) in
  Ok (es, precision_recall true_edges es,
      MkSbEst (sb_struct est1) (sb_traj est1) (sb_matrix est1) (g_add_edges_from empty_digraph es)).
End Score.
