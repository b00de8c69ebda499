(** Property theorems C17-C26, C40, C56. *)
From Verif Require Import Base ModelStructure ModelGraph ModelCims ModelData ModelParams ModelCache ModelCtpc
  SpecStructure SpecGraph SpecComb SpecParams SpecCtpc ProofCache ProofCtpc ProofCtpc2 ProofCtpc3 ProofCtpc4 ProofCtpc5 ProofCtpc6 ProofCtpc7
  PropsParams.

(** C17 *)
Theorem C17_cache_is_a_first_write_wins_map {V} (os post : list (cache_op V)) k : since_last_clear os post ->
  exists r, cache_find (run_cache_ops os) k = Ok r
    /\ match r with Some v => first_put post k v | None => never_put post k end.
Proof. exact (cache_history os post k). Qed.
Theorem C17_every_history_has_a_last_segment {V} (os : list (cache_op V)) : exists post, since_last_clear os post.
Proof. exact (since_last_clear_total os). Qed.
Print Assumptions C17_cache_is_a_first_write_wins_map.
Example C17_case : let os := [CPut ["A"] 1; CClear; CPut ["X";"Y"] 2; CFind ["A"]; CPut ["Y";"X"] 3] in
  since_last_clear os [CPut ["X";"Y"] 2; CFind ["A"]; CPut ["Y";"X"] 3]
  /\ cache_find (run_cache_ops os) ["Y";"X";"X"] = Ok (Some 2) /\ cache_find (run_cache_ops os) ["A"] = Ok None.
Proof.
  cbn zeta. split; [|split; reflexivity]. split; [cbn; intuition discriminate|]. exists [CPut ["A"] 1; CClear]. split; [reflexivity|].
  right. exists [CPut ["A"] 1]. reflexivity.
Qed.

(** C18 *)
Theorem C18_separating_sets u k p : NoDup u ->
  (In p u -> exists L, generate_possible_sub_sets_of_size u k p = Ok L /\ NoDup L
     /\ forall x, In x L <-> sublist x u /\ ~ In p x /\ length x = k)
  /\ (~ In p u -> generate_possible_sub_sets_of_size u k p = Err ValueError).
Proof. exact (subsets_spec u k p). Qed.
Print Assumptions C18_separating_sets.
Example C18_case : NoDup ["A";"B";"C";"D"] /\
  generate_possible_sub_sets_of_size ["A";"B";"C";"D"] 2 "B" = Ok [["A";"C"];["A";"D"];["C";"D"]].
Proof. split; [repeat constructor; cbn; intuition discriminate|reflexivity]. Qed.

(** an estimator over X, Y, Z (see PropsParams); the statistical tests accept iff both CIMs rest on at
    most one transition *)
Definition ctests (k : nat) (c1 c2 : cim) : bool := (diagonal_sum (c_trans c1) <=? 1)%Z.
Definition cenv := MkEnv px pt (Q2Qc (1#4)) ctests.
Definition cm0 := repeat (repeat true 3) 3.
Definition cest := MkCbEst cenv 3 (MkState cm0 empty_cache) (build_complete_graph ["X";"Y";"Z"]).
Example cest_ok : estimator_ok cest.
Proof.
  split; [exact px_wf|]. split; [repeat constructor; cbn; intuition discriminate|]. split; [cbn; intuition lia|].
  split; [reflexivity|]. split; [cbn; intuition (subst; reflexivity)|reflexivity].
Qed.
Example cest_uniform : uniform_data cest 2.
Proof. split; [lia|]. split; [cbn; intuition|]. split; [reflexivity|exact px_data]. Qed.
Example ctest_ok : test_ok px "X" "Y" ["Z"].
Proof.
  split; [cbn; tauto|]. split; [cbn; tauto|]. split; [repeat constructor; cbn; intuition discriminate|]. intros q [<-|[]]. cbn; tauto.
Qed.

(** C19 *)
Theorem C19_independence_test_pairs e tot k c p sep m i j b0 ni spc lpc :
  wf_structure (e_struct e) -> data_ok (e_struct e) (e_traj e) -> total_variables_number (e_struct e) = tot ->
  0 < k -> (forall x, In x (nodes_values (e_struct e)) -> x = k) -> test_ok (e_struct e) c p sep ->
  mat_get m i j = Ok b0 ->
  structure_get_node_indx (e_struct e) c = Ok ni ->
  columns_of (e_struct e) (filter (fun l => lmem l sep) (nodes_labels (e_struct e))) spc ->
  columns_of (e_struct e) (filter (fun l => lmem l (p :: sep)) (nodes_labels (e_struct e))) lpc ->
  exists b st', complete_test e (MkState m empty_cache) p c sep k tot i j = Ok (b, st')
   /\ (b = true <-> forall a : label -> nat, (forall x, a x < k) ->
        pair_accepts e tot k ni (filter (fun l => lmem l sep) (nodes_labels (e_struct e)))
          (filter (fun l => lmem l (p :: sep)) (nodes_labels (e_struct e))) spc lpc a).
Proof. exact (test_meaning e tot k c p sep m i j b0 ni spc lpc). Qed.
Theorem C19_warm_cache_same_answer e tot c cs calls m0 m ch p sep i j : wf_structure (e_struct e) -> legal_calls (e_struct e) c calls ->
  test_ok (e_struct e) c p sep -> run_tests e tot c cs (MkState m0 empty_cache) calls = Ok (MkState m ch) ->
  ((touched calls (p :: sep) /\ ~ touched calls sep) -> complete_test e (MkState m ch) p c sep cs tot i j = Err UnboundLocalError)
  /\ (~ (touched calls (p :: sep) /\ ~ touched calls sep) ->
      match complete_test e (MkState m ch) p c sep cs tot i j, complete_test e (MkState m empty_cache) p c sep cs tot i j with
      | Ok (b1, st1), Ok (b2, st2) => b1 = b2 /\ st_matrix st1 = st_matrix st2
      | Err x1, Err x2 => x1 = x2
      | _, _ => False
      end).
Proof. exact (warm_cache e tot c cs calls m0 m ch p sep i j). Qed.
Print Assumptions C19_independence_test_pairs. Print Assumptions C19_warm_cache_same_answer.
Example C19_case : exists st', complete_test cenv (MkState cm0 empty_cache) "Y" "X" ["Z"] 2 3 1 0 = Ok (false, st')
  /\ columns_of px (filter (fun l => lmem l ["Z"]) (nodes_labels px)) [2]
  /\ columns_of px (filter (fun l => lmem l ["Y";"Z"]) (nodes_labels px)) [1;2] /\ mat_get cm0 1 0 = Ok true.
Proof. eexists. split; [vm_compute; reflexivity|]. split; [repeat constructor|]. split; [repeat constructor|reflexivity]. Qed.
(** the finding: after (Z | Y) the test (Y | Z) finds {Y,Z} in the cache but not {Z} *)
Example C19_unbound_case : exists st1, complete_test cenv (MkState cm0 empty_cache) "Z" "X" ["Y"] 2 3 2 0 = Ok (true, st1)
  /\ complete_test cenv st1 "Y" "X" ["Z"] 2 3 1 0 = Err UnboundLocalError
  /\ legal_calls px "X" [("Z", ["Y"], (2, 0))].
Proof.
  eexists. split; [vm_compute; reflexivity|]. split; [vm_compute; reflexivity|].
  intros p sep ij [H|[]]. injection H as <- <- <-.
  split; [cbn; tauto|]. split; [cbn; tauto|]. split; [repeat constructor; cbn; intuition discriminate|]. intros q [<-|[]]. cbn; tauto.
Qed.

(** C20 *)
Theorem C20_cache_never_crashes_the_search est v : estimator_ok est -> In v (nodes_labels (e_struct (cb_e est))) ->
  optimize_structure (cb_e est) (cb_tot est) (cb_st est) v = optimize_structure_flushed (cb_e est) (cb_tot est) (cb_st est) v
  /\ optimize_structure (cb_e est) (cb_tot est) (cb_st est) v <> Err UnboundLocalError
  /\ (forall es st', optimize_structure (cb_e est) (cb_tot est) (cb_st est) v = Ok (es, st') -> st_cache st' = empty_cache)
  /\ (forall k, uniform_data est k -> exists es st', optimize_structure (cb_e est) (cb_tot est) (cb_st est) v = Ok (es, st')).
Proof. exact (fun H => optimize_safe est H v). Qed.
Print Assumptions C20_cache_never_crashes_the_search.
Example C20_case : exists st', optimize_structure cenv 3 (MkState cm0 empty_cache) "X" = Ok ([("Y","X")], st').
Proof. eexists. vm_compute. reflexivity. Qed.

(** C21 *)
Theorem C21_search_terminates {St} s v gm (ct : St -> label -> list label -> nat -> nat -> nat -> result (bool * St)) st :
  (forall st p ps cs i j, ct st p ps cs i j <> Err OutOfFuel) -> optimize_with s v gm ct st <> Err OutOfFuel.
Proof. exact (fun H => optimize_nf s v gm ct H st). Qed.
Theorem C21_round_bound {St} s v gm (ct : St -> label -> list label -> nat -> nat -> nat -> result (bool * St)) cs u g st fuel n :
  (forall st p ps cs i j, ct st p ps cs i j <> Err OutOfFuel) -> S (length u) <= fuel -> S (length u) <= n ->
  outer_loop s v gm ct fuel n 0 cs u g st = outer_loop s v gm ct (S (length u)) (S (length u)) 0 cs u g st
  /\ outer_loop s v gm ct fuel n 0 cs u g st <> Err OutOfFuel.
Proof.
  exact (fun H Hf Hn =>
    let K := outer_nf s v gm ct H (S (length u)) cs (S (length u)) 0 u g st ltac:(lia) ltac:(lia) in
    let E := outer_fuel s v gm ct cs (S (length u)) (S (length u)) 0 u g st K fuel n Hf Hn in
    conj E (eq_ind_r (fun r => r <> Err OutOfFuel) K E)).
Qed.
Theorem C21_optimize_structure_terminates e tot st v : optimize_structure e tot st v <> Err OutOfFuel.
Proof. exact (optimize_terminates e tot st v). Qed.
Print Assumptions C21_search_terminates. Print Assumptions C21_round_bound. Print Assumptions C21_optimize_structure_terminates.

(** C22 *)
Theorem C22_kept_and_removed_are_justified est v es st' : estimator_ok est -> In v (nodes_labels (e_struct (cb_e est))) ->
  optimize_structure (cb_e est) (cb_tot est) (cb_st est) v = Ok (es, st') ->
  NoDup es /\ exists kept, sublist kept (others (e_struct (cb_e est)) v) /\ (forall a b, In (a, b) es <-> In a kept /\ b = v)
  /\ (forall q, In q (others (e_struct (cb_e est)) v) -> ~ In q kept ->
        exists sep, sublist sep (others (e_struct (cb_e est)) v) /\ ~ In q sep
          /\ test_answers (cb_e est) (cb_tot est) (st_matrix (cb_st est)) v q sep true)
  /\ (forall q i j, In q kept -> structure_get_node_indx (e_struct (cb_e est)) q = Ok i ->
        structure_get_node_indx (e_struct (cb_e est)) v = Ok j -> mat_get (st_matrix st') i j = Ok true ->
        forall sep, sublist sep kept -> ~ In q sep ->
          test_answers (cb_e est) (cb_tot est) (st_matrix (cb_st est)) v q sep false).
Proof. exact (fun H => optimize_justified est H v es st'). Qed.
Print Assumptions C22_kept_and_removed_are_justified.

(** C23 *)
Theorem C23_known_edges_are_kept s t tot known thr tests est mp es est' a b :
  wf_structure s -> NoDup (nodes_indexes s) -> (forall i, In i (nodes_indexes s) -> i < tot) ->
  new_cb_estimator s t tot known thr tests = Ok est -> cb_estimate_structure est mp = Ok (es, est') ->
  In (a, b) known -> a <> b -> In (a, b) es.
Proof. exact (known_edges_kept s t tot known thr tests est mp es est' a b). Qed.
Print Assumptions C23_known_edges_are_kept.
Example C23_case : exists est es est', new_cb_estimator px pt 3 [("Y","Z")] (Q2Qc (1#4)) (fun _ _ _ => true) = Ok est
  /\ cb_estimate_structure est true = Ok (es, est') /\ es = [("Y","Z")].
Proof. do 3 eexists. split; [reflexivity|]. split; [vm_compute; reflexivity|reflexivity]. Qed.

(** C24 *)
Theorem C24_results_are_well_formed est mp es est' : estimator_ok est -> cb_estimate_structure est mp = Ok (es, est') ->
  NoDup es
  /\ (forall a b, In (a, b) es -> In a (nodes_labels (e_struct (cb_e est))) /\ In b (nodes_labels (e_struct (cb_e est))) /\ a <> b)
  /\ (forall v, In v (nodes_labels (e_struct (cb_e est))) ->
        exists esv stv, optimize_structure (cb_e est') (cb_tot est) (cb_st est) v = Ok (esv, stv)
        /\ (forall a, In (a, v) es <-> In (a, v) esv) /\ (forall a b, In (a, b) esv -> b = v))
  /\ (forall x, In x (g_edges_view (cb_graph est')) <-> In x es).
Proof.
  exact (fun H E => match estimate_char est H mp es est' E with
    | conj A (conj B (conj C (conj D (conj _ (conj _ (conj _ (conj _ F))))))) =>
       conj A (conj C (conj (eq_ind_r (fun e' => forall v, In v _ -> exists esv stv, optimize_structure e' _ _ v = Ok (esv, stv) /\ _) B D) F)) end).
Qed.
Theorem C24_estimation_succeeds est mp k : estimator_ok est -> uniform_data est k ->
  exists es est', cb_estimate_structure est mp = Ok (es, est').
Proof. exact (fun H => estimate_total est H mp k). Qed.
Print Assumptions C24_results_are_well_formed. Print Assumptions C24_estimation_succeeds.
Example C24_case : exists es est', cb_estimate_structure cest true = Ok (es, est') /\ es = [("Y","X")].
Proof. do 2 eexists. split; [vm_compute; reflexivity|vm_compute; reflexivity]. Qed.

(** C25 *)
Theorem C25_modes_agree est : estimator_ok est ->
  match cb_estimate_structure est true, cb_estimate_structure est false with
  | Ok (es1, _), Ok (es2, _) => es1 = es2
  | Err x, Err y => x = y
  | _, _ => False
  end.
Proof. exact (estimate_modes_agree est). Qed.
(** any worker that processes any sequence of distinct nodes one after the other on one copy of the
    estimator returns what separate copies would return *)
Theorem C25_any_worker_schedule est ns : estimator_ok est -> NoDup ns ->
  (forall v, In v ns -> In v (nodes_labels (e_struct (cb_e est)))) ->
  match sequential_run (cb_e est) (cb_tot est) (cb_st est) ns, pool_run (cb_e est) (cb_tot est) (cb_st est) ns with
  | Ok (ess1, _), Ok (ess2, _) => ess1 = ess2
  | Err x, Err y => x = y
  | _, _ => False
  end.
Proof. exact (worker_schedule est ns). Qed.
Print Assumptions C25_modes_agree. Print Assumptions C25_any_worker_schedule.

(** C26: C over {0,1,2} moves once for each state of R; Q never leaves state 1; P never moves *)
Definition ws := MkStructure ["C";"P";"Q";"R"] [0;1;2;3] [3;3;3;3] [] 4.
Definition wt := MkTrajectory [1;1;1;1;1;1]%Qc
  [[0;0;1;0; 1;0;1;0]; [1;0;1;0; 1;0;1;1]; [1;0;1;1; 2;0;1;1]; [2;0;1;1; 2;0;1;2]; [2;0;1;2; 0;0;1;2]; [0;0;1;2; -1;-1;-1;-1]]%Z 8 5.
Definition west := MkCbEst (MkEnv ws wt (Q2Qc (1#1000)) ctests) 4 (MkState (repeat (repeat true 4) 4) empty_cache) (build_complete_graph ["C";"P";"Q";"R"]).
Example wdata : data_ok ws wt.
Proof.
  repeat split; try reflexivity.
  all: cbn in H; unfold structure_get_node_indx, structure_get_states_number in *; cbn in H0, H1;
    repeat (destruct (String.eqb l _) in *; [cbn in *; injection H0 as <-; injection H1 as <-|]); try discriminate;
    repeat destruct H as [<-|H]; try contradiction; cbn; try lia.
  all: first [exists 0; split; [reflexivity|lia] | exists 1; split; [reflexivity|lia] | exists 2; split; [reflexivity|lia]
             | eexists; split; [reflexivity|lia]].
Qed.
Theorem C26_marks_are_never_undone est mp es est' : estimator_ok est -> cb_estimate_structure est mp = Ok (es, est') ->
  marks_grow (st_matrix (cb_st est)) (st_matrix (cb_st est')).
Proof. exact (fun H E => proj1 (proj2 (proj2 (proj2 (proj2 (proj2 (proj2 (estimate_char est H mp es est' E)))))))). Qed.
Theorem C26_pool_is_repeatable est es est' : estimator_ok est -> cb_estimate_structure est false = Ok (es, est') ->
  exists est'', cb_estimate_structure est' false = Ok (es, est'').
Proof. exact (fun H => pool_repeatable est H es est'). Qed.
Theorem C26_sequential_rerun_differs : estimator_ok west /\ uniform_data west 3 /\
  exists es1 est1 es2 est2, cb_estimate_structure west true = Ok (es1, est1) /\ cb_estimate_structure est1 true = Ok (es2, est2)
    /\ ~ In ("P","C") es1 /\ In ("P","C") es2.
Proof.
  split; [split; [repeat split; repeat constructor; cbn; intuition discriminate|]; split; [repeat constructor; cbn; intuition discriminate|]; split; [cbn; intuition lia|];
    split; [reflexivity|]; split; [cbn; intuition (subst; reflexivity)|reflexivity]|].
  split; [split; [lia|]; split; [cbn; intuition|]; split; [reflexivity|exact wdata]|].
  do 4 eexists. split; [vm_compute; reflexivity|]. split; [vm_compute; reflexivity|]. split; [cbn; intuition discriminate|cbn; tauto].
Qed.
Print Assumptions C26_marks_are_never_undone. Print Assumptions C26_pool_is_repeatable. Print Assumptions C26_sequential_rerun_differs.

(** C40 *)
Theorem C40_initial_graph l : NoDup l ->
  map fst (g_nodes (build_complete_graph l)) = l /\ NoDup (g_edges_view (build_complete_graph l))
  /\ forall a b, In (a, b) (g_edges_view (build_complete_graph l)) <-> In a l /\ In b l /\ a <> b.
Proof. exact (complete_graph_spec l). Qed.
Theorem C40_prior_matrix s t tot known thr tests : wf_structure s -> NoDup (nodes_indexes s) -> (forall i, In i (nodes_indexes s) -> i < tot) ->
  (edges_within (nodes_labels s) known -> exists est, new_cb_estimator s t tot known thr tests = Ok est
     /\ cb_graph est = build_complete_graph (nodes_labels s) /\ estimator_ok est
     /\ forall a b i j, In a (nodes_labels s) -> In b (nodes_labels s) ->
          structure_get_node_indx s a = Ok i -> structure_get_node_indx s b = Ok j ->
          mat_get (st_matrix (cb_st est)) i j = Ok (negb (emem (a, b) known)))
  /\ (~ edges_within (nodes_labels s) known -> new_cb_estimator s t tot known thr tests = Err ValueError).
Proof. exact (new_estimator_spec s t tot known thr tests). Qed.
Print Assumptions C40_initial_graph. Print Assumptions C40_prior_matrix.
Example C40_case : exists est, new_cb_estimator px pt 3 [("Y","Z")] (Q2Qc (1#4)) ctests = Ok est
  /\ st_matrix (cb_st est) = [[true;true;true];[true;true;false];[true;true;true]]
  /\ g_edges_view (cb_graph est) = [("X","Y");("X","Z");("Y","X");("Y","Z");("Z","X");("Z","Y")].
Proof. eexists. split; [reflexivity|]. split; reflexivity. Qed.

(** C56 *)
Theorem C56_cache_is_not_keyed_by_child e st p c c' sep cs tot i j v2 v1 :
  cache_find (st_cache st) (p :: sep) = Ok (Some v2) -> cache_find (st_cache st) sep = Ok (Some v1) ->
  complete_test e st p c sep cs tot i j = complete_test e st p c' sep cs tot i j.
Proof. exact (cache_not_keyed_by_child e st p c c' sep cs tot i j v2 v1). Qed.
Theorem C56_stale_answer_witness : exists b1 st1 b2 st2 b3 st3,
  complete_test cenv (MkState cm0 empty_cache) "Z" "X" [] 2 3 2 0 = Ok (b1, st1)
  /\ complete_test cenv st1 "Z" "Y" [] 2 3 2 1 = Ok (b2, st2)
  /\ complete_test cenv (MkState cm0 empty_cache) "Z" "Y" [] 2 3 2 1 = Ok (b3, st3) /\ b2 <> b3.
Proof.
  do 6 eexists. split; [vm_compute; reflexivity|]. split; [vm_compute; reflexivity|]. split; [vm_compute; reflexivity|discriminate].
Qed.
Print Assumptions C56_cache_is_not_keyed_by_child. Print Assumptions C56_stale_answer_witness.
