(** Model of PyCTBN/PyCTBN/estimators/structure_constraint_based_estimator.py,
    PyCTBN/PyCTBN/optimizers/constraint_based_optimizer.py and of the parts of
    PyCTBN/PyCTBN/estimators/structure_estimator.py they use. *)
From Verif Require Import Base ModelStructure ModelGraph ModelCims ModelData ModelParams ModelCache.

(** ** structure_estimator.py *)

(** numpy 2-d boolean array access m[i][j]: IndexError out of range *)
Definition mat_get (m : list (list bool)) (i j : nat) : result bool :=
  let* row := nth_res m i in nth_res row j.
Definition mat_set (m : list (list bool)) (i j : nat) (b : bool) : result (list (list bool)) :=
  let* row := nth_res m i in
  if j <? length row then Ok (set_at m i (set_at row j b)) else Err IndexError.

(** structure_estimator.py:48-63 ([tot] is sample_path.total_variables_count) *)
Definition build_removable_edges_matrix (s : structure) (tot : nat) (known : list edge)
  : result (list (list bool)) :=
  fold_left (fun acc e =>
               let* m := acc in
               let* i := structure_get_node_indx s (fst e) in
               let* j := structure_get_node_indx s (snd e) in
               mat_set m i j false)
            known (Ok (repeat (repeat true tot) tot)).

(** itertools.permutations(l, 2): ordered pairs of distinct positions, lexicographic *)
Definition permutations2 (l : list label) : list edge :=
  concat (mapi (fun i x => map (fun y => (x, y)) (firstn i l ++ skipn (S i) l)) l).

(** structure_estimator.py:65-77 *)
Definition build_complete_graph (node_ids : list label) : digraph :=
  g_add_edges_from (g_add_nodes_from empty_digraph node_ids) (permutations2 node_ids).

(** itertools.combinations(l, k): lexicographic order of positions *)
Fixpoint combinations (k : nat) (l : list label) : list (list label) :=
  match k, l with
  | O, _ => [[]]
  | S _, [] => []
  | S k', x :: r => map (cons x) (combinations k' r) ++ combinations k r
  end.

(** structure_estimator.py:80-96.  The iterator is lazy in the code but works on a private copy. *)
Definition generate_possible_sub_sets_of_size (u : list label) (size : nat) (p : label)
  : result (list (list label)) :=
  let* l := py_remove String.eqb p u in Ok (combinations size l).

(** ** structure_constraint_based_estimator.py *)

(** What an estimator object never changes while testing.  The two statistical tests of
    independence_test (lines 155-171: F quantiles, chi-square quantile) are the function [e_tests] of
    the child's cardinality and of the two CIM objects. *)
Record cb_env := MkEnv {
  e_struct : structure;       (* _sample_path.structure, also _nodes, _nodes_indxs, _nodes_vals *)
  e_traj : trajectory;        (* _sample_path.trajectories *)
  e_threshold : Qc;           (* _thumb_threshold *)
  e_tests : nat -> cim -> cim -> bool }.

(** the mutable part: _removable_edges_matrix and _cache *)
Record cb_state := MkState { st_matrix : list (list bool); st_cache : cache (set_of_cims cim) }.

(** np.isin(nodes, l) *)
Definition isin_mask (nodes l : list label) : list bool := map (fun n => lmem n l) nodes.

(** np.sum(np.diagonal(M)) *)
Definition diagonal_sum (m : list (list Z)) : Z := Zsum (mapi (fun i row => nth i row 0%Z) m).

(** structure_constraint_based_estimator.py:174-190; (child_val - 1) is an integer, squared *)
Definition compute_thumb_value (parent_val child_val : nat) (parent_set_vals : list nat) : nat :=
  fold_left Nat.mul parent_set_vals ((child_val - 1) * (child_val - 1) * parent_val).

(** line 152: sum / thumb_value < threshold.  numpy division by 0 gives inf or nan, for which the
    comparison is False. *)
Definition below_threshold (sum : Z) (thumb : nat) (threshold : Qc) : bool :=
  if thumb =? 0 then false
  else match Qccompare (Qc_of_Z sum / Qc_of_Z (Z.of_nat thumb))%Qc threshold with
       | Lt => true | _ => false end.

(** structure_constraint_based_estimator.py:131-172 *)
Definition independence_test (e : cb_env) (st : cb_state) (child_states : nat) (cim1 cim2 : cim)
  (thumb i j : nat) : result (bool * cb_state) :=
  if (2 <? child_states) && below_threshold (diagonal_sum (c_trans cim1)) thumb (e_threshold e)
  then let* m := mat_set (st_matrix st) i j false in Ok (false, MkState m (st_cache st))
  else Ok (e_tests e child_states cim1 cim2, st).

(** lines 126-128: the inner loop over the matching CIMs *)
Fixpoint test_cims (e : cb_env) (st : cb_state) (child_states : nat) (cim1 : cim) (cims : list cim)
  (thumb i j : nat) : result (bool * cb_state) :=
  match cims with
  | [] => Ok (true, st)
  | cim2 :: r =>
      let* (b, st') := independence_test e st child_states cim1 cim2 thumb i j in
      if b then test_cims e st' child_states cim1 r thumb i j else Ok (false, st')
  end.

(** lines 124-129: the outer loop over zip(actual_cims, p_combs) *)
Fixpoint test_configs (e : cb_env) (st : cb_state) (child_states : nat)
  (zipped : list (cim * list nat)) (sofc2 : set_of_cims cim) (cims_filter : list bool)
  (thumb i j : nat) : result (bool * cb_state) :=
  match zipped with
  | [] => Ok (true, st)
  | (cim1, p_comb) :: r =>
      let* cond_cims := filter_cims_with_mask sofc2 cims_filter p_comb in
      let* (b, st') := test_cims e st child_states cim1 cond_cims thumb i j in
      if b then test_configs e st' child_states r sofc2 cims_filter thumb i j else Ok (false, st')
  end.

(** lines 95-104: the graph over the child, the separating set and the test parent, initialised *)
Definition large_graph (e : cb_env) (p c : label) (pset : list label) (tot : nat) : result netgraph :=
  let s := e_struct e in
  let mask := isin_mask (nodes_labels s) (pset ++ [c; p]) in
  let s2 := MkStructure (mask_row mask (nodes_labels s)) (mask_row mask (nodes_indexes s))
              (mask_row mask (nodes_values s)) (map (fun x => (x, c)) (p :: pset)) tot in
  ng_fast_init (new_netgraph s2) c.

(** structure_constraint_based_estimator.py:63-129.  The local variable g2 is [None] while unbound. *)
Definition complete_test (e : cb_env) (st : cb_state) (p c : label) (pset : list label)
  (child_states tot i j : nat) : result (bool * cb_state) :=
  let nodes := nodes_labels (e_struct e) in
  let sorted_parents := mask_row (isin_mask nodes (pset ++ [p])) nodes in
  let cims_filter := map (fun l => negb (String.eqb l p)) sorted_parents in
  let* found2 := cache_find (st_cache st) (p :: pset) in
  let* (sofc2, g2, ch2) :=
    match found2 with
    | Some v => Ok (v, None, st_cache st)
    | None =>
        let* g := large_graph e p c pset tot in
        let* v := compute_parameters_for_node (e_traj e) g c in
        Ok (v, Some g, cache_put (st_cache st) (p :: pset) v)
    end in
  let* found1 := cache_find ch2 pset in
  let* (sofc1, ch1) :=
    match found1 with
    | Some v => Ok (v, ch2)
    | None =>
        let* g := match g2 with Some g => Ok g | None => Err UnboundLocalError end in
        let* g' := ng_remove_node g p in
        let* g'' := ng_fast_init g' c in
        let* v := compute_parameters_for_node (e_traj e) g'' c in
        Ok (v, cache_put ch2 pset v)
    end in
  let st1 := MkState (st_matrix st) ch1 in
  let* thumb :=
    if 2 <? child_states then
      let* parent_val := structure_get_states_number (e_struct e) p in
      Ok (compute_thumb_value parent_val child_states
            (mask_row (isin_mask nodes pset) (nodes_values (e_struct e))))
    else Ok 0 in
  test_configs e st1 child_states (combine (so_actual_cims sofc1) (so_p_combs sofc1))
               sofc2 cims_filter thumb i j.

(** ** constraint_based_optimizer.py, with the test as a parameter [ct state parent set i j] *)
Section Optimizer.
Context {St : Type}.
Variable s : structure.
Variable node : label.
Variable get_matrix : St -> list (list bool).
Variable ct : St -> label -> list label -> nat -> nat -> nat -> result (bool * St).

(** constraint_based_optimizer.py:77-82: the first separating set on which the test succeeds *)
Fixpoint try_sets (st : St) (p : label) (sets : list (list label)) (cs i j : nat)
  : result (bool * St) :=
  match sets with
  | [] => Ok (false, st)
  | ps :: r => let* (b, st') := ct st p ps cs i j in
               if b then Ok (true, st') else try_sets st' p r cs i j
  end.

(** lines 70-84: the inner while loop *)
Fixpoint inner_loop (fuel : nat) (b cs : nat) (idx : nat) (u : list label) (g : netgraph) (st : St)
  : result (list label * netgraph * St) :=
  match fuel with
  | O => Err OutOfFuel
  | S f =>
      if idx <? length u then
        let* p := nth_res u idx in
        let* i := structure_get_node_indx s p in
        let* j := structure_get_node_indx s node in
        let* rm := mat_get (get_matrix st) i j in
        let* (removed, st') :=
          if (rm : bool) then
            let* sets := generate_possible_sub_sets_of_size u b p in
            try_sets st p sets cs i j
          else Ok (false, st) in
        if (removed : bool) then
          let g' := ng_remove_edges g [(p, node)] in
          let* u' := py_remove String.eqb p u in
          inner_loop f b cs idx u' g' st'
        else inner_loop f b cs (S idx) u g st'
      else Ok (u, g, st)
  end.

(** lines 68-85: the outer while loop *)
Fixpoint outer_loop (fuel inner_fuel : nat) (b cs : nat) (u : list label) (g : netgraph) (st : St)
  : result (list label * netgraph * St) :=
  match fuel with
  | O => Err OutOfFuel
  | S f =>
      if b <? length u then
        let* (u', g', st') := inner_loop inner_fuel b cs 0 u g st in
        outer_loop f inner_fuel (S b) cs u' g' st'
      else Ok (u, g, st)
  end.

(** lines 48-85 (without the final cache clearing) *)
Definition optimize_with (st : St) : result (list edge * St) :=
  let others := filter (fun l => negb (String.eqb l node)) (nodes_labels s) in
  let g0 := fold_left (fun g p => ng_add_edges g [(p, node)]) others (new_netgraph s) in
  let* cs := structure_get_states_number s node in
  let n := S (length others) in
  let* (_, g, st') := outer_loop n n 0 cs others g0 st in
  Ok (ng_edges g, st').
End Optimizer.

(** constraint_based_optimizer.py:48-87 for an estimator object, as called from
    structure_constraint_based_estimator.py:192-202 *)
Definition optimize_structure (e : cb_env) (tot : nat) (st : cb_state) (node : label)
  : result (list edge * cb_state) :=
  let* (edges, st') :=
    optimize_with (e_struct e) node st_matrix
      (fun st p ps cs i j => complete_test e st p node ps cs tot i j) st in
  Ok (edges, MkState (st_matrix st') (cache_clear (st_cache st'))).

(** structure_constraint_based_estimator.py:233: the list comprehension of the sequential mode; the
    estimator's state is threaded from node to node *)
Fixpoint sequential_run (e : cb_env) (tot : nat) (st : cb_state) (nodes : list label)
  : result (list (list edge) * cb_state) :=
  match nodes with
  | [] => Ok ([], st)
  | n :: r => let* (es, st') := optimize_structure e tot st n in
              let* (ess, st'') := sequential_run e tot st' r in
              Ok (es :: ess, st'')
  end.

(** lines 239-242: ProcessPoolExecutor.map.  Every task unpickles its own copy of the estimator as it
    is in the parent process (which the workers never change); the results come back in submission
    order, and the first failing task (in that order) re-raises. *)
Definition pool_run (e : cb_env) (tot : nat) (st : cb_state) (nodes : list label)
  : result (list (list edge) * cb_state) :=
  let* ess := res_map (fun n => let* (es, _) := optimize_structure e tot st n in Ok es) nodes in
  Ok (ess, st).

(** a set of edges built from an iterable: first occurrences (the order of a Python set is not used) *)
Definition edge_set_of (l : list edge) : list edge :=
  fold_left (fun acc x => if emem x acc then acc else acc ++ [x]) l [].

(** An estimator object: immutable part, mutable part, the graph and the total variable count. *)
Record cb_estimator := MkCbEst {
  cb_e : cb_env; cb_tot : nat; cb_st : cb_state; cb_graph : digraph }.

(** structure_constraint_based_estimator.py:55-61 and structure_estimator.py:39-45 *)
Definition new_cb_estimator (s : structure) (t : trajectory) (tot : nat) (known : list edge)
  (threshold : Qc) (tests : nat -> cim -> cim -> bool) : result cb_estimator :=
  let* m := build_removable_edges_matrix s tot known in
  Ok (MkCbEst (MkEnv s t threshold tests) tot (MkState m empty_cache)
              (build_complete_graph (nodes_labels s))).

(** structure_constraint_based_estimator.py:205-249, 252-263 *)
Definition cb_estimate_structure (est : cb_estimator) (disable_multiprocessing : bool)
  : result (list edge * cb_estimator) :=
  let e := MkEnv (clean_structure_edges (e_struct (cb_e est))) (e_traj (cb_e est))
                 (e_threshold (cb_e est)) (e_tests (cb_e est)) in
  let nodes := nodes_labels (e_struct e) in
  let* (ess, st') := if disable_multiprocessing then sequential_run e (cb_tot est) (cb_st est) nodes
                     else pool_run e (cb_tot est) (cb_st est) nodes in
  let edges := edge_set_of (concat ess) in
  Ok (edges, MkCbEst e (cb_tot est) st' (g_add_edges_from empty_digraph edges)).
