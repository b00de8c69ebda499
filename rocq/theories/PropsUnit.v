(** Property theorems C74: the unit of time. *)
From Coq Require Import Reals.
From Verif Require Import Base Lib ModelStructure ModelGraph ModelCims ModelData ModelParams ModelCache ModelCtpc ModelSearch ModelEstimators ModelFamScore ModelIndep
  SpecStructure SpecGraph SpecComb SpecParams SpecData SpecCtpc SpecSearch SpecEstimators SpecConserve SpecInvariance SpecFloating SpecFamScore SpecIndep SpecRename SpecUnit
  ProofGraph ProofComb ProofParams2 ProofInvariance ProofEstimators2 ProofSim ProofUnit ProofUnit2 ProofUnit3 PropsData PropsInvariance PropsIndep.
Open Scope nat_scope.

(** FamScore: with the same counts, the residence times and tau_xu multiplied by [k], every score is lowered by ln k for
    each recorded transition (or the same exception is raised) *)
Theorem C74_score_shift lg (k : Qc) cims cims' tau alpha : (0 < k)%Qc -> Forall square cims -> Forall2 (same_in_unit k) cims cims' ->
  get_fam_score lg cims' (Qc2R k * tau)%R alpha
  = rmap (fun sc => sc - ln (Qc2R k) * IZR (all_jumps cims))%R (get_fam_score lg cims tau alpha).
Proof. intros Hk. apply fam_unit. apply Qc2R_pos, Hk. Qed.
Print Assumptions C74_score_shift.

Section data.
Variables (vars : list label) (cards : list nat) (prior : option (list edge)).
Notation prior_edges := (match prior with None => [] | Some es => es end).

(** Score-based estimation: changing the unit of the clocks together with the hyper-parameter tau_xu changes nothing *)
Theorem C74_score_based lg tau alpha (q : Qc) rs s t s' t' k known est draws p dm pn : (0 < q)%Qc ->
  legal_input vars cards rs -> equal_cards cards k ->
  imports_to vars cards prior rs s t -> imports_to vars cards prior (rescaled q rs) s' t' ->
  new_sb_estimator s t (length vars) known = Ok est ->
  exists est', new_sb_estimator s' t' (length vars) known = Ok est'
    /\ same_sb_outcome (sb_estimate_structure R (fun cims => get_fam_score lg cims tau alpha) score_gt est draws p dm pn)
                       (sb_estimate_structure R (fun cims => get_fam_score lg cims (Qc2R q * tau)%R alpha) score_gt est' draws p dm pn).
Proof.
  intros Hq HL HC H H' HE. pose proof (legal_rescaled q _ _ _ HL) as HL'.
  apply (imports_det vars cards prior rs s t HL) in H as [-> ->]. apply (imports_det vars cards prior _ s' t' HL') in H' as [-> ->].
  pose proof (new_sb_ready _ _ known est (legal_wf vars cards prior rs HL) eq_refl HE) as [HR _].
  unfold new_sb_estimator in *. destruct (build_removable_edges_matrix (struct_of vars cards prior) (length vars) known) as [m|x]; [|discriminate].
  cbn [bind] in *. injection HE as <-. eexists. split; [reflexivity|].
  eapply (sb_sim R R _ _ score_gt score_gt (struct_of vars cards prior) _ _
    (fun v a b => b = a - ln (Qc2R q) * IZR (observed_changes rs (idx_of (struct_of vars cards prior) v)))%R); [exact HR| |].
  - intros v a b a' b' -> ->. unfold score_gt. do 2 destruct (Rgt_dec _ _); try reflexivity; exfalso; Lra.lra.
  - intros v K Hv HK. exact (pscore_unit lg tau alpha q vars cards prior rs k v K Hq HL HC Hv HK).
Qed.

(** The intensities, in contrast, are not expressed in the new unit (a rate per hour is not 60 times the rate per minute):
    the smoothing adds one unit of time, whatever the unit *)
Theorem C74_intensities_keep_no_unit (q : Qc) rs s s' t t' es v c ni pis ps : (0 < q)%Qc -> legal_input vars cards rs -> Forall clock_ok rs ->
  imports_to vars cards prior rs s t -> imports_to vars cards prior (rescaled q rs) s' t' ->
  edges_within vars es -> edges_within vars prior_edges -> node_view s (es ++ edges_list s) v c ni pis ps -> 0 < c -> compat c ps ->
  exists g soc soc', ng_fast_init (fresh_graph s es) v = Ok g
   /\ compute_parameters_for_node t g v = Ok soc /\ compute_parameters_for_node t' g v = Ok soc'
   /\ length (so_actual_cims soc) = nat_prod ps /\ length (so_actual_cims soc') = nat_prod ps
   /\ forall j cm cm' x y, nth_error (so_actual_cims soc) j = Some cm -> nth_error (so_actual_cims soc') j = Some cm' ->
        x < c -> y < c -> x <> y ->
        exists row row' r r', nth_error (c_cim cm) x = Some row /\ nth_error row y = Some r
          /\ nth_error (c_cim cm') x = Some row' /\ nth_error row' y = Some r'
          /\ ((q * r')%Qc = r <-> q = 1%Qc).
Proof.
  intros Hq HL HT H H' A1 A2 A3 A4 A5. pose proof (legal_rescaled q _ _ _ HL) as HL'.
  apply (imports_det vars cards prior rs s t HL) in H as [-> ->]. apply (imports_det vars cards prior _ s' t' HL') in H' as [-> ->].
  destruct (raw_params vars cards prior rs es v c ni pis ps HL A1 A2 A3 A4 A5) as [g [G1 G2]].
  destruct (raw_params vars cards prior _ es v c ni pis ps HL' A1 A2 A3 A4 A5) as [g' [G1' G2']].
  rewrite G1 in G1'. injection G1' as <-. eexists g, _, _. split; [exact G1|]. split; [exact G2|]. split; [exact G2'|]. cbn [so_actual_cims].
  rewrite !map_length. split; [apply le_enum_length|]. split; [apply le_enum_length|].
  intros j cm cm' x y. rewrite !map_nth_error_iff. destruct (nth_error (le_enum ps) j) as [u|]; cbn [option_map]; [|discriminate].
  intros E1 E2 Hx Hy Hn. injection E1 as <-. injection E2 as <-.
  destruct (raw_entry rs ni pis c u x y Hx Hy Hn) as [row [R1 R2]]. destruct (raw_entry (rescaled q rs) ni pis c u x y Hx Hy Hn) as [row' [R1' R2']].
  do 4 eexists. split; [exact R1|]. split; [exact R2|]. split; [exact R1'|]. split; [exact R2'|].
  rewrite raw_jumps_rescaled, raw_dwell_rescaled. split.
  - apply rate_unit; [exact Hq|apply Qc_of_Z_nonneg, raw_jumps_nonneg|apply raw_dwell_nonneg, HT].
  - intros ->. rewrite !Qcmult_1_l. reflexivity.
Qed.
End data.
Print Assumptions C74_score_based. Print Assumptions C74_intensities_keep_no_unit.

(** Finding: the constraint-based estimator's answer depends on the unit.  Whenever 1/3 lies between the two quantiles of
    F(4, 2) that the test uses (for a significance level of 0.1 they are about 0.14 and 19), there are data of two binary
    variables for which one unit leads to no edge and another to an edge. *)
Theorem C74_constraint_based_depends_on_the_unit P lo hi thr mp mp' : quantiles_ok P ->
  f_ppf P (exp_alpha P / 2)%R 4 2 = Fin lo -> f_ppf P (1 - exp_alpha P / 2)%R 4 2 = Fin hi -> (lo <= 1 / 3 < hi)%R ->
  exists rs (q : Qc) s t t' est est' es es' r r', legal_input ["X"; "Y"] [2;2] rs /\ Forall clock_ok rs /\ (0 < q)%Qc
   /\ imports_to ["X"; "Y"] [2;2] None rs s t /\ imports_to ["X"; "Y"] [2;2] None (rescaled q rs) s t'
   /\ new_cb_estimator s t 2 [] thr (the_tests P) = Ok est /\ new_cb_estimator s t' 2 [] thr (the_tests P) = Ok est'
   /\ cb_estimate_structure est mp = Ok (es, r) /\ cb_estimate_structure est' mp' = Ok (es', r')
   /\ es = [] /\ (forall e, In e es' <-> e = ("Y", "X")).
Proof.
  intros HQ Hlo Hhi HB. destruct (unit_matters P lo hi HQ Hlo Hhi HB) as [a [b [q [Ha [Hb [Hq [H1 H2]]]]]]].
  assert (Ha' : (0 <= a)%Qc) by (apply Qclt_le_weak, Ha). assert (Hb' : (0 <= b)%Qc) by (apply Qclt_le_weak, Hb).
  assert (Hm : forall z, (0 <= z)%Qc -> (0 <= q * z)%Qc).
  { intros z Hz. rewrite <- (Qcmult_0_l z). apply Qcmult_le_compat_r; [apply Qclt_le_weak, Hq|exact Hz]. }
  destruct (unit_new a b thr (the_tests P)) as [est N1]. destruct (unit_new (q * a)%Qc (q * b)%Qc thr (the_tests P)) as [est' N2].
  destruct (unit_estimate a b Ha' Hb' P HQ thr est mp false N1) as [es [r [E1 K1]]].
  { apply (unit_x a b Ha' Hb' P lo hi Hlo Hhi). exact H1. }
  destruct (unit_estimate (q * a)%Qc (q * b)%Qc (Hm a Ha') (Hm b Hb') P HQ thr est' mp' true N2) as [es' [r' [E2 K2]]].
  { intros K. apply H2. apply (unit_x (q * a)%Qc (q * b)%Qc (Hm a Ha') (Hm b Hb') P lo hi Hlo Hhi). exact K. }
  exists (unit_data a b), q. do 9 eexists.
  split; [apply unit_legal|]. split; [repeat constructor; intros ab [<-|[]]; cbn; assumption|]. split; [exact Hq|].
  split; [apply imports_exists, unit_legal|]. split; [apply imports_exists, legal_rescaled, unit_legal|].
  split; [exact N1|]. split; [rewrite unit_rescaled; exact N2|]. split; [exact E1|]. split; [exact E2|]. split.
  - destruct es as [|e es]; [reflexivity|]. destruct (proj1 (K1 e) (or_introl eq_refl)) as [X _]. discriminate X.
  - intros e. rewrite K2. tauto.
Qed.
Print Assumptions C74_constraint_based_depends_on_the_unit.

Example C74_quantiles : exists lo hi, f_ppf pex (exp_alpha pex / 2)%R 4 2 = Fin lo /\ f_ppf pex (1 - exp_alpha pex / 2)%R 4 2 = Fin hi /\ (lo <= 1 / 3 < hi)%R.
Proof. unfold pex. cbn [f_ppf exp_alpha]. eexists _, _. split; [reflexivity|]. split; [reflexivity|]. Lra.lra. Qed.
Example C74_case : legal_input dvars [2;2] [dr1; dr2] /\ equal_cards [2;2] 2 /\ Forall clock_ok [dr1; dr2]
  /\ (exists s t t' est, imports_to dvars [2;2] None [dr1; dr2] s t /\ imports_to dvars [2;2] None (rescaled (Q2Qc 60) [dr1; dr2]) s t'
       /\ new_sb_estimator s t 2 [] = Ok est /\ node_view s ([("Y","X")] ++ edges_list s) "X" 2 0 [1] [2]).
Proof.
  split; [apply legal_case|]. split; [apply legal_case|]. split.
  { repeat constructor; intros ab Hab; cbn in Hab; intuition (subst; cbn; discriminate). }
  exists (struct_of dvars [2;2] None), (traj_of dvars [dr1; dr2]), (traj_of dvars (rescaled (Q2Qc 60) [dr1; dr2])). eexists.
  split; [apply imports_exists, legal_case|]. split; [apply imports_exists, legal_rescaled, legal_case|]. split; [reflexivity|].
  split; [reflexivity|]. split; [reflexivity|]. split; repeat constructor.
Qed.
