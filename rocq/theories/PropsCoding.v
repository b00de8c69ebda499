(** Property theorems C75: the coding of the states. *)
From Coq Require Import Reals.
From Verif Require Import Base Lib ModelStructure ModelGraph ModelCims ModelData ModelParams ModelCache ModelCtpc ModelSearch ModelEstimators ModelFamScore ModelIndep
  SpecStructure SpecGraph SpecComb SpecParams SpecData SpecCtpc SpecSearch SpecEstimators SpecConserve SpecInvariance SpecFloating SpecFamScore SpecIndep SpecRename SpecUnit SpecCoding
  ProofGraph ProofComb ProofParams2 ProofInvariance ProofEstimators2 ProofSearch ProofCtpc ProofCtpc5 ProofCtpc7 ProofSim ProofCbSim ProofCoding ProofCoding2 ProofCoding3 ProofCoding4 PropsData PropsInvariance PropsIndep.
Open Scope nat_scope.

Section data.
Variables (vars : list label) (cards : list nat) (prior : option (list edge)) (code : nat -> nat -> nat).
Notation prior_edges := (match prior with None => [] | Some es => es end).

(** Parameters: the CIM of a parent configuration is, with its rows and columns renumbered, the CIM of the renumbered
    parent configuration *)
Theorem C75_parameters rs s s' t t' es v c ni pis ps : coding code cards -> legal_input vars cards rs ->
  imports_to vars cards prior rs s t -> imports_to vars cards prior (recoded code rs) s' t' ->
  edges_within vars es -> edges_within vars prior_edges -> node_view s (es ++ edges_list s) v c ni pis ps -> 0 < c -> compat c ps ->
  s' = s /\ exists g soc soc', ng_fast_init (fresh_graph s es) v = Ok g
   /\ compute_parameters_for_node t g v = Ok soc /\ compute_parameters_for_node t' g v = Ok soc'
   /\ length (so_actual_cims soc) = nat_prod ps /\ length (so_actual_cims soc') = nat_prod ps
   /\ forall u, config_ok ps u -> config_ok ps (recode_config code pis u)
        /\ exists cm cm', nth_error (so_actual_cims soc) (config_rank ps u) = Some cm
             /\ nth_error (so_actual_cims soc') (config_rank ps (recode_config code pis u)) = Some cm'
             /\ same_recoded (code ni) c cm cm'.
Proof.
  intros HC HL H H' A1 A2 A3 A4 A5. pose proof (legal_recoded code cards HC _ _ HL) as HL'.
  apply (imports_det vars cards prior rs s t HL) in H as [-> ->]. apply (imports_det vars cards prior _ s' t' HL') in H' as [-> ->]. split; [reflexivity|].
  destruct (raw_params vars cards prior rs es v c ni pis ps HL A1 A2 A3 A4 A5) as [g [G1 G2]].
  destruct (raw_params vars cards prior _ es v c ni pis ps HL' A1 A2 A3 A4 A5) as [g' [G1' G2']].
  rewrite G1 in G1'. injection G1' as <-. eexists g, _, _. split; [exact G1|]. split; [exact G2|]. split; [exact G2'|]. cbn [so_actual_cims].
  rewrite !map_length. split; [apply le_enum_length|]. split; [apply le_enum_length|].
  destruct A3 as [V1 [V2 [V3 V4]]].
  assert (HP : cols_cards cards pis ps).
  { clear -V3 V4. unfold cols_cards. revert ps V4. induction V3 as [|p i P I E V IH]; intros ps V4; inversion V4; subst; constructor; [eapply struct_of_card; eassumption|]. apply IH. assumption. }
  intros u Hu. pose proof (config_recoded code cards HC pis ps u HP Hu) as Hu'. split; [exact Hu'|].
  eexists _, _. rewrite !map_nth_error_iff. rewrite (le_enum_rank ps u Hu), (le_enum_rank ps _ Hu'). cbn [option_map]. split; [reflexivity|]. split; [reflexivity|].
  apply (raw_cim_recoded code cards HC rs ni c pis ps u); auto; [apply HL|]. exact (struct_of_card vars cards prior v ni c V2 V1).
Qed.

(** Score-based estimation does not depend on the coding *)
Theorem C75_score_based lg tau alpha rs s t s' t' k known est draws p dm pn : coding code cards -> legal_input vars cards rs -> equal_cards cards k ->
  imports_to vars cards prior rs s t -> imports_to vars cards prior (recoded code rs) s' t' ->
  new_sb_estimator s t (length vars) known = Ok est ->
  exists est', new_sb_estimator s' t' (length vars) known = Ok est'
    /\ same_sb_outcome (sb_estimate_structure R (fun cims => get_fam_score lg cims tau alpha) score_gt est draws p dm pn)
                       (sb_estimate_structure R (fun cims => get_fam_score lg cims tau alpha) score_gt est' draws p dm pn).
Proof.
  intros HC HL HK H H' HE. pose proof (legal_recoded code cards HC _ _ HL) as HL'.
  apply (imports_det vars cards prior rs s t HL) in H as [-> ->]. apply (imports_det vars cards prior _ s' t' HL') in H' as [-> ->].
  pose proof (new_sb_ready _ _ known est (legal_wf vars cards prior rs HL) eq_refl HE) as [HR _].
  unfold new_sb_estimator in *. destruct (build_removable_edges_matrix (struct_of vars cards prior) (length vars) known) as [m|x]; [|discriminate].
  cbn [bind] in *. injection HE as <-. eexists. split; [reflexivity|].
  eapply (sb_sim R R _ _ score_gt score_gt (struct_of vars cards prior) _ _ (fun _ a b => b = a)); [exact HR| |].
  - intros v a b a' b' -> ->. reflexivity.
  - intros v K Hv HKs. rewrite (pscore_recoded vars cards prior code HC lg tau alpha rs k v K HL HK Hv HKs). unfold related. destruct (pscore _ _ _ _ _ _); reflexivity.
Qed.

(** Every single independence test gives the same answer *)
Theorem C75_single_test P rs s t s' t' k known thr est : coding code cards -> quantiles_ok P ->
  legal_input vars cards rs -> Forall clock_ok rs -> equal_cards cards k ->
  imports_to vars cards prior rs s t -> imports_to vars cards prior (recoded code rs) s' t' ->
  new_cb_estimator s t (length vars) known thr (the_tests P) = Ok est ->
  exists est', new_cb_estimator s' t' (length vars) known thr (the_tests P) = Ok est'
    /\ forall v p sep, test_ok s v p sep ->
         exists b, forall b', (test_answers (cb_e est) (cb_tot est) (st_matrix (cb_st est)) v p sep b' <-> b' = b)
           /\ (test_answers (cb_e est') (cb_tot est') (st_matrix (cb_st est')) v p sep b' <-> b' = b).
Proof.
  intros HC HQ HL HT HE H H' HN. pose proof (legal_recoded code cards HC _ _ HL) as HL'.
  apply (imports_det vars cards prior rs s t HL) in H as [-> ->]. apply (imports_det vars cards prior _ s' t' HL') in H' as [-> ->].
  pose proof (legal_wf vars cards prior rs HL) as Hwf.
  assert (HG : forall a b, In a vars -> In b vars -> exists r, mat_get (st_matrix (cb_st est)) (idx_of (struct_of vars cards prior) a) (idx_of (struct_of vars cards prior) b) = Ok r).
  { assert (N1 : NoDup (nodes_indexes (struct_of vars cards prior))) by (cbn [struct_of nodes_indexes]; apply seq_NoDup).
    assert (N2 : forall i, In i (nodes_indexes (struct_of vars cards prior)) -> i < length vars) by (cbn [struct_of nodes_indexes]; intros i Hi; apply in_seq in Hi; lia).
    destruct (new_estimator_ok _ _ _ _ _ _ _ Hwf N1 N2 HN) as [_ [_ [_ [_ HM]]]]. intros a b Ha Hb.
    destruct (wf_lookup _ a Hwf Ha) as [_ [_ [_ [_ [Ea _]]]]]. destruct (wf_lookup _ b Hwf Hb) as [_ [_ [_ [_ [Eb _]]]]]. eexists. exact (HM a b _ _ Ha Hb Ea Eb). }
  unfold new_cb_estimator in *. destruct (build_removable_edges_matrix (struct_of vars cards prior) (length vars) known) as [m|x]; [|discriminate].
  cbn [bind] in *. injection HN as <-. eexists. split; [reflexivity|]. cbn [cb_e cb_tot cb_st st_matrix] in *. intros v p sep Ht.
  destruct (verdict_bool vars cards prior code P thr rs k HC HQ HL HT HE v p sep Ht) as [b [mk [mk' [E1 E2]]]]. exists b.
  pose proof Ht as [Hv [Hp _]]. pose proof (idx_card vars cards prior v Hwf Hv) as Ev.
  assert (Ek : val_of (struct_of vars cards prior) v = k) by (apply HE; exact (nth_error_In _ _ Ev)).
  assert (A1 : test_answers (MkEnv (struct_of vars cards prior) (traj_of vars rs) thr (the_tests P)) (length vars) m v p sep b).
  { eapply verdict_answers; [exact Hwf|exact Hv|exact Ht|apply HG; assumption|]. cbn [e_struct]. rewrite Ek. exact E1. }
  assert (A2 : test_answers (MkEnv (struct_of vars cards prior) (traj_of vars (recoded code rs)) thr (the_tests P)) (length vars) m v p sep b).
  { eapply verdict_answers; [exact Hwf|exact Hv|exact Ht|apply HG; assumption|]. cbn [e_struct]. rewrite Ek. exact E2. }
  assert (D : forall e b1 b2, test_answers e (length vars) m v p sep b1 -> test_answers e (length vars) m v p sep b2 -> b2 = b1).
  { intros e b1 b2 [cs [i [j [st1 [X1 [X2 [X3 X4]]]]]]] [cs' [i' [j' [st2 [Y1 [Y2 [Y3 Y4]]]]]]]. congruence. }
  intros b'. split; (split; [intros X|intros ->; assumption]); [exact (D _ _ _ A1 X)|exact (D _ _ _ A2 X)].
Qed.

(** For variables with at most two states, or with the data-size check switched off (a threshold of at most 0), the
    constraint-based result does not depend on the coding either *)
Theorem C75_constraint_based P rs s t s' t' k known thr est mode : coding code cards -> quantiles_ok P ->
  legal_input vars cards rs -> Forall clock_ok rs -> equal_cards cards k -> k <= 2 \/ (thr <= 0)%Qc ->
  imports_to vars cards prior rs s t -> imports_to vars cards prior (recoded code rs) s' t' ->
  new_cb_estimator s t (length vars) known thr (the_tests P) = Ok est ->
  exists est', new_cb_estimator s' t' (length vars) known thr (the_tests P) = Ok est'
    /\ same_edges (cb_estimate_structure est mode) (cb_estimate_structure est' mode).
Proof.
  intros HC HQ HL HT HE Hk H H' HN. pose proof (legal_recoded code cards HC _ _ HL) as HL'.
  apply (imports_det vars cards prior rs s t HL) in H as [-> ->]. apply (imports_det vars cards prior _ s' t' HL') in H' as [-> ->].
  unfold new_cb_estimator in *. destruct (build_removable_edges_matrix (struct_of vars cards prior) (length vars) known) as [m|x]; [|discriminate].
  cbn [bind] in *. injection HN as <-. eexists. split; [reflexivity|]. apply cb_sim; [exact (legal_wf vars cards prior rs HL)|].
  intros v p K Ht. exact (verdict_r vars cards prior code P thr rs k HC HQ HL HT HE v p K Hk Ht).
Qed.
End data.
Print Assumptions C75_parameters. Print Assumptions C75_score_based. Print Assumptions C75_single_test. Print Assumptions C75_constraint_based.

(** Finding: otherwise it can.  Five variables with three states each; interchanging the names of two states of one variable
    decides whether the edge Y -> X is returned, whatever the significance levels and in both execution modes. *)
Theorem C75_constraint_based_depends_on_the_coding P mode mode' : quantiles_ok P ->
  exists vars code rs known thr s t t' est est' es es' r r', let cards := [3;3;3;3;3] in
   coding code cards /\ legal_input vars cards rs /\ Forall clock_ok rs
   /\ imports_to vars cards None rs s t /\ imports_to vars cards None (recoded code rs) s t'
   /\ new_cb_estimator s t 5 known thr (the_tests P) = Ok est /\ new_cb_estimator s t' 5 known thr (the_tests P) = Ok est'
   /\ cb_estimate_structure est mode = Ok (es, r) /\ cb_estimate_structure est' mode' = Ok (es', r')
   /\ ~ In ("Y", "X") es /\ In ("Y", "X") es'.
Proof.
  intros HQ. exists cvars, ccode, cdata, cknown, cthr, cs0, (traj_of cvars cdata), (traj_of cvars (recoded ccode cdata)).
  pose proof cdata_legal as HL. pose proof (legal_recoded ccode ccards ccode_ok _ _ HL) as HL'. pose proof (clock_recoded ccode _ cdata_clock) as HT'.
  destruct (quick_values P mode) as [Q1 _]. destruct (quick_values P mode') as [_ Q2].
  pose proof (cb_quick cvars ccards None cdata 3 P cthr cm0 (build_complete_graph cvars) mode HQ HL cdata_clock ccards_equal) as B1.
  pose proof (cb_quick cvars ccards None (recoded ccode cdata) 3 P cthr cm0 (build_complete_graph cvars) mode' HQ HL' HT' ccards_equal) as B2.
  cbv zeta in B1, B2. fold cs0 in B1, B2. change (length cvars) with 5 in B1, B2. unfold quick_run in Q1, Q2. unfold same_edges in B1, B2.
  set (E1 := MkCbEst (MkEnv cs0 (traj_of cvars cdata) cthr (the_tests P)) 5 (MkState cm0 empty_cache) (build_complete_graph cvars)) in *.
  set (E2 := MkCbEst (MkEnv cs0 (traj_of cvars (recoded ccode cdata)) cthr (the_tests P)) 5 (MkState cm0 empty_cache) (build_complete_graph cvars)) in *.
  destruct (cb_estimate_structure (MkCbEst (MkEnv cs0 (traj_of cvars cdata) cthr (quick_tests P)) 5 (MkState cm0 empty_cache) (build_complete_graph cvars)) mode) as [[es0 r0]|x]; [|discriminate].
  destruct (cb_estimate_structure (MkCbEst (MkEnv cs0 (traj_of cvars (recoded ccode cdata)) cthr (quick_tests P)) 5 (MkState cm0 empty_cache) (build_complete_graph cvars)) mode') as [[es0' r0']|x]; [|discriminate].
  destruct (cb_estimate_structure E1 mode) as [[es r]|x] eqn:R1; [|contradiction]. destruct (cb_estimate_structure E2 mode') as [[es' r']|x] eqn:R2; [|contradiction].
  subst es0 es0'. injection Q1 as Q1. injection Q2 as Q2. exists E1, E2, es, es', r, r'.
  split; [exact ccode_ok|]. split; [exact HL|]. split; [exact cdata_clock|]. split; [apply imports_exists, HL|]. split; [apply imports_exists, HL'|].
  split; [reflexivity|]. split; [reflexivity|]. split; [exact R1|]. split; [exact R2|]. rewrite <- !emem_In, Q1, Q2. split; [discriminate|reflexivity].
Qed.
Print Assumptions C75_constraint_based_depends_on_the_coding.

(** a concrete case: the two states of the second variable interchanged *)
Definition flip_y (i x : nat) : nat := if i =? 1 then 1 - x else x.
Example C75_case : coding flip_y [2;2] /\ recoded flip_y [dr1; dr2] <> [dr1; dr2] /\ legal_input dvars [2;2] [dr1; dr2] /\ equal_cards [2;2] 2 /\ Forall clock_ok [dr1; dr2]
  /\ (exists s t t' est est', imports_to dvars [2;2] None [dr1; dr2] s t /\ imports_to dvars [2;2] None (recoded flip_y [dr1; dr2]) s t'
       /\ new_sb_estimator s t 2 [] = Ok est /\ new_cb_estimator s t 2 [] (Q2Qc 25) (the_tests pex) = Ok est'
       /\ test_ok s "X" "Y" [] /\ node_view s ([("Y","X")] ++ edges_list s) "X" 2 0 [1] [2]).
Proof.
  assert (HC : coding flip_y [2;2]).
  { intros i c Hi. assert (c = 2) by (do 2 (destruct i as [|i]; [cbn in Hi; congruence|]); destruct i; discriminate). subst c.
    unfold flip_y. split; intros x; destruct (i =? 1); lia. }
  split; [exact HC|]. split; [cbv; discriminate|]. split; [apply legal_case|]. split; [apply legal_case|]. split.
  { repeat constructor; intros ab Hab; cbn in Hab; intuition (subst; cbn; discriminate). }
  exists (struct_of dvars [2;2] None), (traj_of dvars [dr1; dr2]), (traj_of dvars (recoded flip_y [dr1; dr2])). do 2 eexists.
  split; [apply imports_exists, legal_case|]. split; [apply imports_exists; apply (legal_recoded flip_y [2;2] HC); apply legal_case|]. split; [reflexivity|]. split; [reflexivity|].
  split. { split; [left; reflexivity|]. split; [right; left; reflexivity|]. split; [|intros q []]. repeat constructor; cbn; intuition discriminate. }
  split; [reflexivity|]. split; [reflexivity|]. split; repeat constructor.
Qed.
