(** Property theorems C64 and C65: what the answers may depend on. *)
From Verif Require Import Base ModelStructure ModelGraph ModelCims ModelData ModelParams ModelCache ModelCtpc ModelSearch ModelEstimators
  SpecStructure SpecGraph SpecComb SpecParams SpecData SpecCtpc SpecSearch SpecEstimators SpecInvariance
  Lib ProofGraph ProofComb ProofParams ProofParams2 ProofCtpc ProofCtpc7 ProofEstimators2 ProofInvariance PropsData.

Section data.
Variables (vars : list label) (cards : list nat) (prior : option (list edge)).
Notation prior_edges := (match prior with None => [] | Some es => es end).
(** the nodes the statements are about: in the network [es] plus the prior edges, [v] has [c] > 0 states and its
    parents have [c] states or a single one *)
Notation asked s es v c ni pis ps := (edges_within vars es /\ edges_within vars prior_edges
  /\ node_view s (es ++ edges_list s) v c ni pis ps /\ 0 < c /\ compat c ps).

(** C64: the same observations, differently cut, shifted, refined and ordered, give the same parameters *)
Theorem C64_same_parameters rs rs' s t s' t' : legal_input vars cards rs -> same_observations rs rs' ->
  imports_to vars cards prior rs s t -> imports_to vars cards prior rs' s' t' ->
  s' = s /\ forall es v c ni pis ps, asked s es v c ni pis ps ->
    exists g soc, ng_fast_init (fresh_graph s es) v = Ok g
      /\ compute_parameters_for_node t g v = Ok soc /\ compute_parameters_for_node t' g v = Ok soc.
Proof.
  intros HL HO H H'. pose proof (proj1 (same_obs_legal rs rs' HO vars cards) HL) as HL'.
  apply (imports_det vars cards prior rs s t HL) in H as [-> ->]. apply (imports_det vars cards prior rs' s' t' HL') in H' as [-> ->].
  split; [reflexivity|]. intros es v c ni pis ps [A1 [A2 [A3 [A4 A5]]]].
  destruct (raw_params vars cards prior rs es v c ni pis ps HL A1 A2 A3 A4 A5) as [g [G1 G2]].
  destruct (raw_params vars cards prior rs' es v c ni pis ps HL' A1 A2 A3 A4 A5) as [g' [G1' G2']].
  rewrite G1 in G1'. injection G1' as <-. eexists g, _. split; [exact G1|]. split; [exact G2|]. rewrite G2'. do 2 f_equal.
  apply map_ext. intros u. symmetry. apply raw_cim_same, HO.
Qed.
Theorem C64_import_succeeds rs rs' : legal_input vars cards rs -> same_observations rs rs' ->
  exists s t t', imports_to vars cards prior rs s t /\ imports_to vars cards prior rs' s t'.
Proof.
  intros HL HO. pose proof (proj1 (same_obs_legal rs rs' HO vars cards) HL) as HL'.
  eexists _, _, _. split; [apply imports_exists, HL|apply imports_exists, HL'].
Qed.

(** C64: data sets add up *)
Theorem C64_additive rs1 rs2 s1 s2 s t1 t2 t : legal_input vars cards rs1 -> legal_input vars cards rs2 ->
  imports_to vars cards prior rs1 s1 t1 -> imports_to vars cards prior rs2 s2 t2 -> imports_to vars cards prior (rs1 ++ rs2) s t ->
  s1 = s /\ s2 = s /\ forall es v c ni pis ps, asked s es v c ni pis ps ->
    exists g soc1 soc2 soc, ng_fast_init (fresh_graph s es) v = Ok g
      /\ compute_parameters_for_node t1 g v = Ok soc1 /\ compute_parameters_for_node t2 g v = Ok soc2
      /\ compute_parameters_for_node t g v = Ok soc
      /\ so_p_combs soc1 = so_p_combs soc /\ so_p_combs soc2 = so_p_combs soc
      /\ length (so_actual_cims soc1) = length (so_actual_cims soc) /\ length (so_actual_cims soc2) = length (so_actual_cims soc)
      /\ length (so_actual_cims soc) = nat_prod ps
      /\ forall j cm1 cm2 cm, nth_error (so_actual_cims soc1) j = Some cm1 -> nth_error (so_actual_cims soc2) j = Some cm2 ->
           nth_error (so_actual_cims soc) j = Some cm -> length (c_times cm) = c /\ adds_up cm1 cm2 cm.
Proof.
  intros HL1 HL2 H1 H2 H. pose proof (legal_app _ _ _ _ HL1 HL2) as HL.
  apply (imports_det vars cards prior _ s1 t1 HL1) in H1 as [-> ->]. apply (imports_det vars cards prior _ s2 t2 HL2) in H2 as [-> ->].
  apply (imports_det vars cards prior _ s t HL) in H as [-> ->]. split; [reflexivity|]. split; [reflexivity|].
  intros es v c ni pis ps [A1 [A2 [A3 [A4 A5]]]].
  destruct (raw_params vars cards prior rs1 es v c ni pis ps HL1 A1 A2 A3 A4 A5) as [g [G1 G2]].
  destruct (raw_params vars cards prior rs2 es v c ni pis ps HL2 A1 A2 A3 A4 A5) as [g' [G1' G2']].
  destruct (raw_params vars cards prior (rs1 ++ rs2) es v c ni pis ps HL A1 A2 A3 A4 A5) as [g'' [G1'' G2'']].
  rewrite G1 in G1', G1''. injection G1' as <-. injection G1'' as <-. do 4 eexists.
  split; [exact G1|]. split; [exact G2|]. split; [exact G2'|]. split; [exact G2''|]. cbn [so_p_combs so_actual_cims].
  split; [reflexivity|]. split; [reflexivity|]. rewrite !map_length. split; [reflexivity|]. split; [reflexivity|]. split; [apply le_enum_length|].
  intros j cm1 cm2 cm. rewrite !map_nth_error_iff. destruct (nth_error (le_enum ps) j) as [u|]; cbn [option_map]; [|discriminate].
  intros E1 E2 E. injection E1 as <-. injection E2 as <-. injection E as <-. split; [|apply raw_cim_adds].
  unfold raw_cim. cbn [compute_cim_coefficients new_cim c_times]. rewrite map_length, seq_length. reflexivity.
Qed.

(** C64: another unit of time *)
Theorem C64_time_unit k rs s s' t t' : legal_input vars cards rs ->
  imports_to vars cards prior rs s t -> imports_to vars cards prior (rescaled k rs) s' t' ->
  s' = s /\ forall es v c ni pis ps, asked s es v c ni pis ps ->
    exists g soc soc', ng_fast_init (fresh_graph s es) v = Ok g
      /\ compute_parameters_for_node t g v = Ok soc /\ compute_parameters_for_node t' g v = Ok soc'
      /\ so_p_combs soc' = so_p_combs soc /\ length (so_actual_cims soc) = nat_prod ps
      /\ Forall2 (same_in_unit k) (so_actual_cims soc) (so_actual_cims soc').
Proof.
  intros HL H H'. pose proof (legal_rescaled k _ _ _ HL) as HL'.
  apply (imports_det vars cards prior rs s t HL) in H as [-> ->]. apply (imports_det vars cards prior _ s' t' HL') in H' as [-> ->].
  split; [reflexivity|]. intros es v c ni pis ps [A1 [A2 [A3 [A4 A5]]]].
  destruct (raw_params vars cards prior rs es v c ni pis ps HL A1 A2 A3 A4 A5) as [g [G1 G2]].
  destruct (raw_params vars cards prior _ es v c ni pis ps HL' A1 A2 A3 A4 A5) as [g' [G1' G2']].
  rewrite G1 in G1'. injection G1' as <-. eexists g, _, _. split; [exact G1|]. split; [exact G2|]. split; [exact G2'|]. cbn [so_p_combs so_actual_cims].
  split; [reflexivity|]. split; [rewrite map_length; apply le_enum_length|].
  clear. induction (le_enum ps) as [|u l IH]; cbn [map]; constructor; [apply raw_cim_rescaled|exact IH].
Qed.

(** C65 *)
Theorem C65_same_structure_constraint_based rs rs' s t s' t' k known thr tests est mode :
  legal_input vars cards rs -> equal_cards cards k -> same_observations rs rs' ->
  imports_to vars cards prior rs s t -> imports_to vars cards prior rs' s' t' ->
  new_cb_estimator s t (length vars) known thr tests = Ok est ->
  exists est', new_cb_estimator s' t' (length vars) known thr tests = Ok est'
    /\ same_edges (cb_estimate_structure est mode) (cb_estimate_structure est' mode).
Proof.
  intros HL [Hk HC] HO H H' HE. pose proof (proj1 (same_obs_legal rs rs' HO vars cards) HL) as HL'.
  apply (imports_det vars cards prior rs s t HL) in H as [-> ->]. apply (imports_det vars cards prior rs' s' t' HL') in H' as [-> ->].
  unfold new_cb_estimator in *. destruct (build_removable_edges_matrix (struct_of vars cards prior) (length vars) known) as [m|x]; [|discriminate].
  cbn [bind] in *. injection HE as <-. eexists. split; [reflexivity|]. apply cb_same; [exact (legal_wf _ _ _ _ HL)|].
  intros v K Hv HK. rewrite (raw_set_params vars cards prior rs k v K HL Hk HC Hv HK), (raw_set_params vars cards prior rs' k v K HL' Hk HC Hv HK).
  do 2 f_equal. apply map_ext. intros u. apply raw_cim_same, HO.
Qed.
Theorem C65_same_structure_score_based Sc (score : list cim -> result Sc) gt rs rs' s t s' t' k known est draws p dm pn :
  legal_input vars cards rs -> equal_cards cards k -> same_observations rs rs' ->
  imports_to vars cards prior rs s t -> imports_to vars cards prior rs' s' t' ->
  new_sb_estimator s t (length vars) known = Ok est ->
  exists est', new_sb_estimator s' t' (length vars) known = Ok est'
    /\ match sb_estimate_structure Sc score gt est draws p dm pn, sb_estimate_structure Sc score gt est' draws p dm pn with
       | Ok (es, pr, _), Ok (es', pr', _) => es = es' /\ pr = pr'
       | Err x, Err y => x = y
       | _, _ => False
       end.
Proof.
  intros HL [Hk HC] HO H H' HE. pose proof (proj1 (same_obs_legal rs rs' HO vars cards) HL) as HL'.
  apply (imports_det vars cards prior rs s t HL) in H as [-> ->]. apply (imports_det vars cards prior rs' s' t' HL') in H' as [-> ->].
  pose proof (new_sb_ready _ _ known est (legal_wf vars cards prior rs HL) eq_refl HE) as [HR _].
  unfold new_sb_estimator in *. destruct (build_removable_edges_matrix (struct_of vars cards prior) (length vars) known) as [m|x]; [|discriminate].
  cbn [bind] in *. injection HE as <-. eexists. split; [reflexivity|]. eapply sb_same; [exact HR|].
  intros v K Hv HK. change (total_variables_number (struct_of vars cards prior)) with (length vars).
  rewrite (raw_set_params vars cards prior rs k v K HL Hk HC Hv HK), (raw_set_params vars cards prior rs' k v K HL' Hk HC Hv HK).
  do 2 f_equal. apply map_ext. intros u. apply raw_cim_same, HO.
Qed.
End data.

(** C65: the order of the rows of the processed data, whatever the cardinalities *)
Theorem C65_row_order_constraint_based s t t' tot known thr tests est mode : wf_structure s -> same_rows_up_to_order t t' ->
  new_cb_estimator s t tot known thr tests = Ok est ->
  exists est', new_cb_estimator s t' tot known thr tests = Ok est'
    /\ same_edges (cb_estimate_structure est mode) (cb_estimate_structure est' mode).
Proof.
  intros Hwf HO HE. unfold new_cb_estimator in *. destruct (build_removable_edges_matrix s tot known) as [m|x]; [|discriminate].
  cbn [bind] in *. injection HE as <-. eexists. split; [reflexivity|]. apply cb_same; [exact Hwf|].
  intros v K _ _. apply parameters_perm, HO.
Qed.
Theorem C65_row_order_score_based Sc (score : list cim -> result Sc) gt s t t' known est draws p dm pn :
  wf_structure s -> nodes_indexes s = seq 0 (length (nodes_labels s)) -> same_rows_up_to_order t t' ->
  new_sb_estimator s t (length (nodes_labels s)) known = Ok est ->
  exists est', new_sb_estimator s t' (length (nodes_labels s)) known = Ok est'
    /\ match sb_estimate_structure Sc score gt est draws p dm pn, sb_estimate_structure Sc score gt est' draws p dm pn with
       | Ok (es, pr, _), Ok (es', pr', _) => es = es' /\ pr = pr'
       | Err x, Err y => x = y
       | _, _ => False
       end.
Proof.
  intros Hwf Hi HO HE. pose proof (new_sb_ready s t known est Hwf Hi HE) as [HR _].
  unfold new_sb_estimator in *. destruct (build_removable_edges_matrix s (length (nodes_labels s)) known) as [m|x]; [|discriminate].
  cbn [bind] in *. injection HE as <-. eexists. split; [reflexivity|]. eapply sb_same; [exact HR|].
  intros v K _ _. apply parameters_perm, HO.
Qed.

(** a trajectory of four observations, and the same one cut at its second observation, the first part one unit
    later, with one more observation at which nothing changes, after the second data set *)
Definition dr1a : raw := [(1%Qc, [0;0]%Z); (Q2Qc (3#2), [1;0]%Z)].
Definition dr1b : raw := [(Q2Qc (1#2), [1;0]%Z); (1%Qc, [1;0]%Z); (Q2Qc 2, [1;1]%Z); (Q2Qc 3, [-1;-1]%Z)].
Example same_case : same_observations [dr1; dr2] [dr2; dr1a; dr1b].
Proof.
  assert (E1 : dr1 = [(0%Qc, [0;0]%Z)] ++ (Q2Qc (1#2), [1;0]%Z) :: [(Q2Qc 2, [1;1]%Z); (Q2Qc 3, [-1;-1]%Z)]) by reflexivity.
  rewrite E1. eapply obs_trans; [apply obs_cut|].
  eapply obs_trans; [apply (obs_shift 1)|].
  eapply obs_trans; [apply obs_order, perm_swap|].
  eapply obs_trans; [apply (obs_unchanged [] (Q2Qc (1#2)) 1%Qc [1;0]%Z (Q2Qc 2, [1;1]%Z))|].
  assert (E2 : map (fun o : Qc * list Z => ((fst o + 1)%Qc, snd o)) ([(0%Qc, [0;0]%Z)] ++ [(Q2Qc (1#2), [1;0]%Z)]) = dr1a).
  { unfold dr1a. cbn [app map fst snd]. repeat f_equal; apply Qc_is_canon; vm_compute; reflexivity. }
  rewrite E2. cbn [app]. fold dr1b. apply obs_order. transitivity (dr1b :: dr2 :: [dr1a]); [apply perm_skip, perm_swap|].
  transitivity (dr2 :: dr1b :: [dr1a]); [apply perm_swap|]. apply perm_skip, perm_swap.
Qed.
Example legal_case : legal_input dvars [2;2] [dr1; dr2] /\ equal_cards [2;2] 2.
Proof.
  split; [|split; [lia|cbn; intuition]]. split; [exact d_header|]. split; [discriminate|]. split; [reflexivity|]. split; [exact d_raw_ok|].
  exists dr1. split; [left; reflexivity|cbn; lia].
Qed.
(** the two imports deliver different data *)
Example different_data : exists s t t', imports_to dvars [2;2] None [dr1; dr2] s t /\ imports_to dvars [2;2] None [dr2; dr1a; dr1b] s t'
  /\ length (t_rows t) = 4 /\ length (t_rows t') = 5
  /\ node_view s ([("Y","X")] ++ edges_list s) "X" 2 0 [1] [2].
Proof.
  exists (struct_of dvars [2;2] None), (traj_of dvars [dr1; dr2]), (traj_of dvars [dr2; dr1a; dr1b]).
  split; [apply imports_exists, legal_case|]. split; [apply imports_exists, (same_obs_legal _ _ same_case), legal_case|].
  split; [reflexivity|]. split; [reflexivity|]. split; [reflexivity|]. split; [reflexivity|]. split; repeat constructor.
Qed.
(** dropping the condition that nothing changed, the counts differ *)
Example changed_case : raw_jumps [[(0%Qc, [0;0]%Z); (1%Qc, [1;1]%Z); (Q2Qc 2, [0;0]%Z)]] 0 1 [0;1] [0;0]
  <> raw_jumps [[(0%Qc, [0;0]%Z); (Q2Qc 2, [0;0]%Z)]] 0 1 [0;1] [0;0].
Proof. vm_compute. discriminate. Qed.

Print Assumptions C64_same_parameters.
Print Assumptions C64_import_succeeds.
Print Assumptions C64_additive.
Print Assumptions C64_time_unit.
Print Assumptions C65_same_structure_constraint_based.
Print Assumptions C65_same_structure_score_based.
Print Assumptions C65_row_order_constraint_based.
Print Assumptions C65_row_order_score_based.
