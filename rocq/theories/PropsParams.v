(** Property theorems C10-C15. *)
From Verif Require Import Base ModelStructure ModelGraph ModelCims ModelData ModelParams
  SpecStructure SpecGraph SpecComb SpecParams ProofIndex ProofParams ProofParams2 ProofParams3.

(** a data set over X, Y, Z (two states each); the last row ends a trajectory *)
Definition px := MkStructure ["X";"Y";"Z"] [0;1;2] [2;2;2] [] 3.
Definition pt := MkTrajectory [Q2Qc (1#2); 1; Q2Qc 2; Q2Qc (1#4)]%Qc
  [[0;1;0;1;1;0]; [1;1;0;1;0;0]; [1;0;0;0;0;0]; [0;0;0;-1;-1;-1]]%Z 6 4.
Definition pedges := [("Z","X");("Y","X")].
Example px_wf : wf_structure px.
Proof. repeat split; repeat constructor; cbn; intuition discriminate. Qed.
Example px_data : data_ok px pt.
Proof.
  repeat split; try reflexivity.
  all: cbn in H; unfold structure_get_node_indx, structure_get_states_number in *; cbn in H0, H1;
    repeat (destruct (String.eqb l _) in *; [cbn in *; injection H0 as <-; injection H1 as <-|]); try discriminate;
    repeat destruct H as [<-|H]; try contradiction; cbn; try lia.
  all: first [exists 0; split; [reflexivity|lia] | exists 1; split; [reflexivity|lia]
             | eexists; split; [reflexivity|lia]].
Qed.
Example px_view : node_view px (pedges ++ edges_list px) "X" 2 0 [1;2] [2;2].
Proof. repeat split; repeat constructor. Qed.
Example px_within : edges_within (nodes_labels px) pedges /\ edges_within (nodes_labels px) (edges_list px).
Proof. split; intros e H; cbn in H; repeat destruct H as [<-|H]; cbn; tauto. Qed.
Example px_compat : compat 2 [2;2].
Proof. intros p H _. cbn in H. intuition. Qed.

(** C10 *)
Theorem C10_residence_times s t es v c ni pis ps : wf_structure s -> data_ok s t ->
  edges_within (nodes_labels s) es -> edges_within (nodes_labels s) (edges_list s) ->
  node_view s (es ++ edges_list s) v c ni pis ps -> 0 < c -> compat c ps ->
  exists g soc, ng_fast_init (fresh_graph s es) v = Ok g
    /\ compute_parameters_for_node t g v = Ok soc
    /\ get_cims_number soc = nat_prod ps
    /\ forall u x, config_ok ps u -> x < c ->
        exists cm, nth_error (so_actual_cims soc) (config_rank ps u) = Some cm
          /\ nth_error (c_times cm) x = Some (dwell_time (t_times t) (t_rows t) (ni :: pis) (x :: u)).
Proof. exact (residence_times s t es v c ni pis ps). Qed.
Print Assumptions C10_residence_times.
Example C10_case : exists g soc cm, ng_fast_init (fresh_graph px pedges) "X" = Ok g
  /\ compute_parameters_for_node pt g "X" = Ok soc
  /\ nth_error (so_actual_cims soc) (config_rank [2;2] [1;0]) = Some cm
  /\ config_rank [2;2] [1;0] = 1 /\ c_times cm = [Q2Qc (1#2); 1%Qc] /\ c_trans cm = [[1;1];[0;0]]%Z.
Proof. do 3 eexists. split; [reflexivity|]. split; [vm_compute; reflexivity|]. repeat split; reflexivity. Qed.

(** C11 *)
Theorem C11_transition_counts s t es v c ni pis ps : wf_structure s -> data_ok s t ->
  edges_within (nodes_labels s) es -> edges_within (nodes_labels s) (edges_list s) ->
  node_view s (es ++ edges_list s) v c ni pis ps -> 0 < c -> compat c ps ->
  exists g soc, ng_fast_init (fresh_graph s es) v = Ok g
    /\ compute_parameters_for_node t g v = Ok soc
    /\ length (so_actual_cims soc) = nat_prod ps
    /\ forall u x, config_ok ps u -> x < c ->
        exists cm row, nth_error (so_actual_cims soc) (config_rank ps u) = Some cm
          /\ nth_error (c_trans cm) x = Some row /\ length row = c
          /\ (forall x', x' < c -> x' <> x -> nth_error row x' =
               Some (row_count (t_rows t) ((ni + total_variables_number s) :: ni :: pis) (x' :: x :: u)))
          /\ nth_error row x = Some (Zsum (map (fun x' => if x' =? x then 0%Z else
               row_count (t_rows t) ((ni + total_variables_number s) :: ni :: pis) (x' :: x :: u)) (seq 0 c))).
Proof. exact (transition_counts s t es v c ni pis ps). Qed.
Print Assumptions C11_transition_counts.

(** C12 *)
Theorem C12_index_agrees_iff c ps : 0 < c -> Forall (fun p => 0 < p) ps ->
  ((forall x u, x < c -> config_ok ps u ->
      scalar_index (Z.of_nat x :: map Z.of_nat u) (build_time_scalar_indexing_structure_for_a_node c ps)
      = Z.of_nat (config_rank (c :: ps) (x :: u)))
   <-> compat c ps).
Proof. exact (index_agree_iff c ps). Qed.
Print Assumptions C12_index_agrees_iff.
Theorem C12_residence_times_correct_iff c ps : 0 < c -> Forall (fun p => 0 < p) ps ->
  (residence_correct c ps <-> compat c ps).
Proof. exact (residence_correct_iff c ps). Qed.
Print Assumptions C12_residence_times_correct_iff.
(** a three-state node with a binary parent: the time spent in (state 0, parent 1) is booked on (state 2, parent 0) *)
Theorem C12_silently_wrong_refuted : exists times traj T,
  Forall (fun row => row_in_range row [0;1] [3;2]) traj
  /\ compute_state_res_time_for_node times traj (build_time_columns_filtering_for_a_node 0 [1])
       (build_time_scalar_indexing_structure_for_a_node 3 [2]) 2 3 = Ok T
  /\ dwell_time times traj [0;1] [0;1] = 1%Qc
  /\ nth_error T (config_rank [2] [1]) = Some [0%Qc;0%Qc;0%Qc]
  /\ nth_error T (config_rank [2] [0]) = Some [0%Qc;0%Qc;1%Qc].
Proof.
  exists [1%Qc], [[0;1]%Z]. eexists. split.
  - constructor; [|constructor]. constructor; [exists 0; cbn; auto|]. constructor; [exists 1; cbn; auto|constructor].
  - split; [vm_compute; reflexivity|]. repeat split; vm_compute; reflexivity.
Qed.
Print Assumptions C12_silently_wrong_refuted.
(** a binary node with a three-state parent: estimation raises *)
Theorem C12_raises_refuted : exists s t g,
  wf_structure s /\ data_ok s t /\ ng_fast_init (fresh_graph s [("P","X")]) "X" = Ok g
  /\ compute_parameters_for_node t g "X" = Err ValueError.
Proof.
  exists (MkStructure ["X";"P"] [0;1] [2;3] [] 2), (MkTrajectory [1%Qc] [[0;2;1;2]%Z] 4 3). eexists. split.
  - repeat split; repeat constructor; cbn; intuition discriminate.
  - split; [|split; [reflexivity|vm_compute; reflexivity]].
    repeat split; try reflexivity.
    all: cbn in H; unfold structure_get_node_indx, structure_get_states_number in *; cbn in H0, H1;
    repeat (destruct (String.eqb l _) in *; [cbn in *; injection H0 as <-; injection H1 as <-|]); try discriminate;
    repeat destruct H as [<-|H]; try contradiction; cbn; try lia.
    all: first [exists 0; split; [reflexivity|lia] | exists 2; split; [reflexivity|lia] | eexists; split; [reflexivity|lia]].
Qed.
Print Assumptions C12_raises_refuted.

(** C13 *)
Theorem C13_time_conserved times traj cols c ps T : Forall (fun p => 0 < p) ps ->
  compute_state_res_time_for_node times traj cols (build_time_scalar_indexing_structure_for_a_node c ps) (nat_prod ps) c = Ok T ->
  Qcsum (concat T) = Qcsum times.
Proof. exact (time_conserved times traj cols c ps T). Qed.
Print Assumptions C13_time_conserved.
(** also with mixed cardinalities *)
Example C13_case : exists T, compute_state_res_time_for_node [1; Q2Qc 2; Q2Qc (1#2)]%Qc [[0;1];[2;0];[2;1]]%Z [0;1]
    (build_time_scalar_indexing_structure_for_a_node 3 [2]) (nat_prod [2]) 3 = Ok T /\ T = [[0;0;Q2Qc 3];[0;Q2Qc (1#2);0]]%Qc.
Proof. eexists. split; vm_compute; reflexivity. Qed.

(** C14 *)
Theorem C14_row_order_irrelevant t t' g n : same_rows_up_to_order t t' ->
  compute_parameters_for_node t g n = compute_parameters_for_node t' g n.
Proof. exact (parameters_perm t t' g n). Qed.
Print Assumptions C14_row_order_irrelevant.
Example C14_case : same_rows_up_to_order pt
  (MkTrajectory [Q2Qc 2; Q2Qc (1#4); Q2Qc (1#2); 1]%Qc
     [[1;0;0;0;0;0]; [0;0;0;-1;-1;-1]; [0;1;0;1;1;0]; [1;1;0;1;0;0]]%Z 6 4).
Proof.
  repeat split. cbn [combine t_times t_rows pt].
  match goal with |- Permutation [?a;?b;?c;?d] _ => exact (Permutation_app_comm [a;b] [c;d]) end.
Qed.

(** C15 *)
Theorem C15_coefficients times counts cm : cm = compute_cim_coefficients (new_cim times counts) ->
  c_times cm = times /\ c_trans cm = counts
  /\ forall x x' T z row, nth_error times x = Some T -> nth_error counts x = Some row -> nth_error row x' = Some z ->
       exists qrow, nth_error (c_cim cm) x = Some qrow
        /\ nth_error qrow x' = Some (if x =? x' then (1 - Qc_of_Z z) / (T + 1) else (Qc_of_Z z + 1) / (T + 1))%Qc.
Proof. exact (smoothed_cims times counts cm). Qed.
Print Assumptions C15_coefficients.
Theorem C15_row_sum times counts x T row z : nth_error times x = Some T -> nth_error counts x = Some row ->
  nth_error row x = Some z -> z = Zsum (mapi (fun j v => if x =? j then 0%Z else v) row) ->
  exists qrow, nth_error (c_cim (compute_cim_coefficients (new_cim times counts))) x = Some qrow
    /\ Qcsum qrow = (Qc_of_Z (Z.of_nat (length row)) / (T + 1))%Qc.
Proof. exact (cim_row_sum times counts x T row z). Qed.
Print Assumptions C15_row_sum.
Theorem C15_not_a_generator_refuted times counts x T row z : nth_error times x = Some T -> (0 <= T)%Qc ->
  nth_error counts x = Some row -> nth_error row x = Some z ->
  z = Zsum (mapi (fun j v => if x =? j then 0%Z else v) row) ->
  exists qrow, nth_error (c_cim (compute_cim_coefficients (new_cim times counts))) x = Some qrow
    /\ Qcsum qrow <> 0%Qc
    /\ (z = 0%Z -> exists d, nth_error qrow x = Some d /\ (0 < d)%Qc).
Proof. exact (cim_not_generator times counts x T row z). Qed.
Print Assumptions C15_not_a_generator_refuted.
Example C15_case : c_cim (compute_cim_coefficients (new_cim [1; Q2Qc 3; 0]%Qc [[3;2;1];[4;4;0];[0;0;0]]%Z))
  = [[Q2Qc (-2#2); Q2Qc (3#2); Q2Qc (2#2)]; [Q2Qc (5#4); Q2Qc (-3#4); Q2Qc (1#4)]; [1; 1; 1]]%Qc.
Proof. vm_compute. reflexivity. Qed.
