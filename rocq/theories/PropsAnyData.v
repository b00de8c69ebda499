(** Property theorems C70: the parameters computed from any table of integers. *)
From Verif Require Import Base Lib LibQc ModelStructure ModelGraph ModelCims ModelData ModelParams
  SpecStructure SpecGraph SpecComb SpecParams SpecAnyData ProofIndex ProofAnyData ProofAnyData2.

(** which cell every row is booked on, and when the computation refuses the data *)
Theorem C70_parameters_of_any_data s t es v c ni pis ps : wf_structure s -> columns_exist s t ->
  edges_within (nodes_labels s) es -> edges_within (nodes_labels s) (edges_list s) ->
  node_view s (es ++ edges_list s) v c ni pis ps -> 0 < c -> Forall (fun p => 0 < p) ps ->
  let tot := total_variables_number s in
  exists g, ng_fast_init (fresh_graph s es) v = Ok g
  /\ (all_booked t tot ps ni pis c -> exists soc, compute_parameters_for_node t g v = Ok soc
        /\ length (so_actual_cims soc) = nat_prod ps
        /\ forall r, r < nat_prod ps -> exists cm, nth_error (so_actual_cims soc) r = Some cm
             /\ c_times cm = booked_times t ps ni pis c r /\ c_trans cm = booked_counts t tot ps ni pis c r)
  /\ (~ all_booked t tot ps ni pis c -> compute_parameters_for_node t g v = Err ValueError).
Proof.
  intros Hwf Hd H1 H2 V Hc Hp tot. destruct (any_fresh s t es v c ni pis ps Hwf Hd H1 H2 V Hc Hp) as [g [G [P1 P2]]].
  exists g. split; [exact G|]. split; [|exact P2]. intro B. eexists. split; [exact (P1 B)|]. cbn [so_actual_cims].
  split; [rewrite map_length, seq_length; reflexivity|]. intros r Hr. eexists.
  rewrite map_nth_error_iff, nth_error_seq'. destruct (Nat.ltb_spec r (nat_prod ps)); [|lia]. split; [reflexivity|]. split; reflexivity.
Qed.
Print Assumptions C70_parameters_of_any_data.
(** no time is lost or invented: the residence times add up to the durations, wherever they are booked *)
Theorem C70_time_conserved t tot ps ni pis c : 0 < c -> length (t_times t) = length (t_rows t) -> all_booked t tot ps ni pis c ->
  Qcsum (concat (map (booked_times t ps ni pis c) (seq 0 (nat_prod ps)))) = Qcsum (t_times t).
Proof. exact (booked_conserved t tot ps ni pis c). Qed.
Print Assumptions C70_time_conserved.
(** a node without parents: a current state out of the declared range is always refused *)
Theorem C70_no_parents t tot ni c : 0 < c ->
  (all_booked t tot [] ni [] c <-> forall row, In row (t_rows t) -> (0 <= entry row ni < Z.of_nat c)%Z
     /\ ((0 <= entry row (ni + tot))%Z -> (entry row (ni + tot) + Z.of_nat c * entry row ni < Z.of_nat (c * c))%Z)).
Proof. exact (booked_alone t tot ni c). Qed.
Print Assumptions C70_no_parents.
(** in-range data: for which cardinalities the computation never raises (it may still be wrong, see C12) *)
Theorem C70_in_range_data_never_refused_iff s es v c ni pis ps : wf_structure s -> NoDup (nodes_indexes s) ->
  Forall (fun i => i < total_variables_number s) (nodes_indexes s) -> Forall (fun k => 0 < k) (nodes_values s) ->
  edges_within (nodes_labels s) es -> edges_within (nodes_labels s) (edges_list s) ->
  node_view s (es ++ edges_list s) v c ni pis ps ->
  exists g, ng_fast_init (fresh_graph s es) v = Ok g
  /\ ((forall t, data_ok s t -> columns_exist s t -> exists soc, compute_parameters_for_node t g v = Ok soc)
      <-> (largest_place c ps < Z.of_nat (c * nat_prod ps))%Z)
  /\ (forall t x, data_ok s t -> columns_exist s t -> compute_parameters_for_node t g v = Err x -> x = ValueError).
Proof. exact (never_raises s es v c ni pis ps). Qed.
Print Assumptions C70_in_range_data_never_refused_iff.
(** with one parent: exactly when the parent has no more states than the node *)
Theorem C70_one_parent c p : 0 < c -> 0 < p -> ((largest_place c [p] < Z.of_nat (c * nat_prod [p]))%Z <-> p <= c).
Proof. exact (one_parent_largest c p). Qed.
Print Assumptions C70_one_parent.

(** finding: states that no variable has are accepted and booked on another parent configuration.
    X, P, Q are binary, P and Q are X's parents; P = 2, Q = 0 is booked on P = 0, Q = 1 *)
Definition bad_s := MkStructure ["X";"P";"Q"] [0;1;2] [2;2;2] [] 3.
Definition bad_t := MkTrajectory [1; Q2Qc 3]%Qc [[0;2;0;1;0;0]; [1;-1;1;-1;-1;-1]]%Z 6 4.
Definition bad_es := [("P","X");("Q","X")].
Example bad_t_ok : wf_structure bad_s /\ columns_exist bad_s bad_t /\ edges_within (nodes_labels bad_s) bad_es
  /\ node_view bad_s (bad_es ++ edges_list bad_s) "X" 2 0 [1;2] [2;2] /\ all_booked bad_t 3 [2;2] 0 [1;2] 2.
Proof.
  split; [repeat split; repeat constructor; cbn; intuition discriminate|]. split.
  - split; [reflexivity|]. split; [reflexivity|]. split; [reflexivity|]. split.
    + intros l i H. unfold structure_get_node_indx in H. cbn in H.
      repeat (destruct (String.eqb l _) in *; [cbn in *; injection H as <-; lia|]); discriminate.
    + intros row [<-|[<-|[]]]; reflexivity.
  - split; [intros e [<-|[<-|[]]]; cbn; tauto|]. split; [repeat split; repeat constructor|].
    intros row [<-|[<-|[]]]; cbn; lia.
Qed.
Theorem C70_bad_states_unnoticed_refuted : exists s t es v g soc cm,
  wf_structure s /\ columns_exist s t /\ ng_fast_init (fresh_graph s es) v = Ok g /\ compute_parameters_for_node t g v = Ok soc
  (* no row shows the parents in the states 0 and 1, yet this configuration has a residence time *)
  /\ (forall row, In row (t_rows t) -> row_shows row [1;2] [0;1] = false)
  /\ nth_error (so_actual_cims soc) (config_rank [2;2] [0;1]) = Some cm /\ nth_error (c_times cm) 0 = Some 1%Qc
  /\ nth_error (c_trans cm) 0 = Some [1;1]%Z.
Proof.
  exists bad_s, bad_t, bad_es, "X". do 3 eexists. split; [apply bad_t_ok|]. split; [apply bad_t_ok|].
  split; [reflexivity|]. split; [vm_compute; reflexivity|]. split.
  - intros row [<-|[<-|[]]]; reflexivity.
  - split; [reflexivity|]. split; vm_compute; reflexivity.
Qed.
Print Assumptions C70_bad_states_unnoticed_refuted.
(** a three-state parent of a binary node: refused on some in-range data; two parents of a three-state node *)
Example C70_cases : largest_place 2 [3] = 7%Z /\ 2 * nat_prod [3] = 6 /\ largest_place 3 [2;2] = 8%Z /\ 3 * nat_prod [2;2] = 12
  /\ largest_place 2 [2;3] = 15%Z /\ 2 * nat_prod [2;3] = 12.
Proof. repeat split; reflexivity. Qed.
