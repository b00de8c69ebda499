(** Property theorems C19 (arbitrary cardinalities) and C39 (choice of the search). *)
From Verif Require Import Base Lib ModelStructure ModelGraph ModelCims ModelData ModelParams ModelCache ModelCtpc ModelSearch ModelEstimators
  SpecStructure SpecGraph SpecComb SpecParams SpecCtpc SpecCtpc2 ProofCtpc8.

(** The independence test of [c] from [p] given [sep], for variables with any numbers of states: it compares
    the parameters of [c] given [sep] with those of [c] given [p] and [sep], both computed from scratch, in
    every configuration of [sep]; the rule of thumb uses the number of states of [p] itself; the removable
    edge is cleared only when the test gives up for lack of data *)
Theorem C19_any_cardinalities e c p sep m i j cs pcard seps so1 so2 b st' :
  wf_structure (e_struct e) -> test_ok (e_struct e) c p sep ->
  structure_get_states_number (e_struct e) p = Ok pcard -> 0 < pcard ->
  Forall2 (fun l k => structure_get_states_number (e_struct e) l = Ok k) (filter (fun l => lmem l sep) (nodes_labels (e_struct e))) seps ->
  Forall (fun k => 0 < k) seps ->
  parameters_given e c sep so1 -> parameters_given e c (p :: sep) so2 ->
  complete_test e (MkState m empty_cache) p c sep cs (total_variables_number (e_struct e)) i j = Ok (b, st') ->
  let mask := map (fun l => negb (String.eqb l p)) (filter (fun l => lmem l (p :: sep)) (nodes_labels (e_struct e))) in
  (b = true <-> forall c1 u cc c2, In (c1, u) (combine (so_actual_cims so1) (so_p_combs so1)) -> filter_cims_with_mask so2 mask u = Ok cc -> In c2 cc ->
       plenty (e_threshold e) cs pcard seps c1 /\ e_tests e cs c1 c2 = true)
  /\ (st_matrix st' = m
      \/ (b = false /\ (exists c1, In c1 (so_actual_cims so1) /\ ~ plenty (e_threshold e) cs pcard seps c1)
          /\ forall i' j', mat_get (st_matrix st') i' j' = if (i' =? i) && (j' =? j) then Ok false else mat_get m i' j')).
Proof. exact (test_any e c p sep m i j cs pcard seps so1 so2 b st'). Qed.
Print Assumptions C19_any_cardinalities.
(** a three-state variable X, a binary P; one transition of X over the rule of thumb's 4 * 2 = 8 *)
Definition as_ := MkStructure ["X";"P"] [0;1] [3;2] [] 2.
Definition at_ := MkTrajectory [1; 1; 1]%Qc [[0;0;1;0]; [1;0;-1;1]; [1;1;-1;-1]]%Z 4 3.
Definition aenv q := MkEnv as_ at_ q (fun _ _ _ => true).
Example C19_any_case : wf_structure as_ /\ test_ok as_ "X" "P" []
  /\ (exists so1, parameters_given (aenv 1) "X" [] so1) /\ (exists so2, parameters_given (aenv 1) "X" ["P"] so2)
  /\ (exists st', complete_test (aenv (Q2Qc (1#8))) (MkState [[true;true];[true;true]] empty_cache) "P" "X" [] 3 2 1 0 = Ok (true, st')
        /\ st_matrix st' = [[true;true];[true;true]])
  /\ (exists st', complete_test (aenv (Q2Qc (1#7))) (MkState [[true;true];[true;true]] empty_cache) "P" "X" [] 3 2 1 0 = Ok (false, st')
        /\ st_matrix st' = [[true;true];[false;true]]).
Proof.
  split; [repeat split; repeat constructor; cbn; intuition discriminate|].
  split; [split; [cbn; tauto|]; split; [cbn; tauto|]; split; [repeat constructor; cbn; intuition discriminate|intros q []]|].
  split; [do 2 eexists; split; [vm_compute; reflexivity|vm_compute; reflexivity]|].
  split; [do 2 eexists; split; [vm_compute; reflexivity|vm_compute; reflexivity]|].
  split; eexists; (split; [vm_compute; reflexivity|reflexivity]).
Qed.

(** C39: the optimizer named "tabu" is tabu search, every other name is hill climbing *)
Theorem C39_optimizer_choice Sc score gt est draws v p :
  (sp_optimizer p = "tabu" -> forall es, estimate_parents Sc score gt est draws v p = Ok es <-> exists tr,
      tabu_search Sc score gt (sb_traj est) draws (sb_struct est) (sb_matrix est) v
        (sp_max_parents p) (sp_iterations p) (sp_patience p) (sp_tabu_length p) (sp_tabu_duration p) = Ok (es, tr))
  /\ (sp_optimizer p <> "tabu" -> forall es, estimate_parents Sc score gt est draws v p = Ok es <-> exists tr,
      hill_climbing Sc score gt (sb_traj est) draws (sb_struct est) (sb_matrix est) v
        (sp_max_parents p) (sp_iterations p) (sp_patience p) = Ok (es, tr)).
Proof.
  unfold estimate_parents. split; intros H es.
  - rewrite H. cbn [String.eqb Ascii.eqb Bool.eqb]. destruct (tabu_search _ _ _ _ _ _ _ _ _ _ _ _ _) as [[es' tr]|x]; cbn [bind].
    + split; [intro K; injection K as <-; exists tr; reflexivity|]. intros [tr' K]. injection K as <- _. reflexivity.
    + split; [discriminate|]. intros [tr K]. discriminate.
  - destruct (String.eqb_spec (sp_optimizer p) "tabu"); [contradiction|]. destruct (hill_climbing _ _ _ _ _ _ _ _ _ _ _) as [[es' tr]|x]; cbn [bind].
    + split; [intro K; injection K as <-; exists tr; reflexivity|]. intros [tr' K]. injection K as <- _. reflexivity.
    + split; [discriminate|]. intros [tr K]. discriminate.
Qed.
Print Assumptions C39_optimizer_choice.
