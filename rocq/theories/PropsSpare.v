(** Property theorems C98: declaring states that never occur. *)
From Coq Require Import Reals Lra.
From Verif Require Import Base Lib LibQc ModelStructure ModelGraph ModelCims ModelData ModelParams ModelCache ModelCtpc ModelFamScore ModelIndep
  SpecStructure SpecGraph SpecComb SpecParams SpecData SpecCtpc SpecFloating SpecInvariance SpecFamScore SpecIndep SpecRecover2 SpecCoding SpecSpare
  ProofStructure ProofData ProofInvariance ProofParams3 ProofIndep ProofIndep2 ProofFamScore2 ProofSpare ProofSpare2 ProofSpare3 PropsData PropsInvariance PropsFamScore PropsIndep.
Open Scope nat_scope.

(** The same data imported with [k] and with [k'] >= [k] declared states: in the configurations that can occur the times, counts
    and rates are the same, the rates to the further states are 1 / (T + 1); in all others everything is 0, every rate is 1. *)
Theorem C98_parameters vars cards cards' prior rs k k' s t s' t' es v : legal_input vars cards rs ->
  equal_cards cards k -> equal_cards cards' k' -> length cards' = length vars -> k <= k' ->
  imports_to vars cards prior rs s t -> imports_to vars cards' prior rs s' t' ->
  edges_within vars es -> edges_within vars (match prior with None => [] | Some ps => ps end) -> In v vars ->
  t' = t /\ exists g soc g' soc' n,
    ng_fast_init (fresh_graph s es) v = Ok g /\ compute_parameters_for_node t g v = Ok soc
    /\ ng_fast_init (fresh_graph s' es) v = Ok g' /\ compute_parameters_for_node t' g' v = Ok soc'
    /\ n = length (filter (fun l => emem (l, v) (es ++ match prior with None => [] | Some ps => ps end)) vars)
    /\ forall u x, config_ok (repeat k' n) u -> x < k' -> exists cm', nth_error (so_actual_cims soc') (config_rank (repeat k' n) u) = Some cm'
        /\ (Forall (fun d => d < k) (x :: u) -> exists cm, nth_error (so_actual_cims soc) (config_rank (repeat k n) u) = Some cm /\ extended_state k k' cm cm' x)
        /\ (~ Forall (fun d => d < k) (x :: u) -> blank_state k' cm' x).
Proof. exact (spare_parameters vars cards cards' prior rs k k' s t s' t' es v). Qed.
Print Assumptions C98_parameters.

(** If every variable has a declared state in which it is never observed, the chi-square test has no effect at all: the
    constraint-based estimator returns the same edges whatever its level and its quantiles. *)
Theorem C98_chi_square_switched_off vars cards prior rs k P P' known thr s t est est' es es' r r' mode :
  legal_input vars cards rs -> Forall clock_ok rs -> equal_cards cards k ->
  quantiles_ok P -> quantiles_ok P' -> same_rate_test P P' -> (forall j, j < length vars -> exists d, d < k /\ never_observed rs j d) ->
  imports_to vars cards prior rs s t ->
  new_cb_estimator s t (length vars) known thr (the_tests P) = Ok est -> new_cb_estimator s t (length vars) known thr (the_tests P') = Ok est' ->
  cb_estimate_structure est mode = Ok (es, r) -> cb_estimate_structure est' mode = Ok (es', r') -> es = es'.
Proof.
  intros H1 H2 H3 H4 H5 H6 H7 H8 H9 H10 R R'.
  exact (spare_estimate vars cards prior rs k P P' known thr s t est est' es es' r r' mode mode H1 H2 H3 H4 H5 H6 H7 H8 H9 H10 eq_refl R R').
Qed.
Print Assumptions C98_chi_square_switched_off.

(** in particular declaring one state too many for all variables does this to every data set *)
Theorem C98_one_state_too_many vars cards cards' prior rs k k' P P' known thr s t est est' es es' r r' mode :
  legal_input vars cards rs -> equal_cards cards k -> k < k' -> length cards' = length vars -> equal_cards cards' k' -> Forall clock_ok rs ->
  quantiles_ok P -> quantiles_ok P' -> same_rate_test P P' -> imports_to vars cards' prior rs s t ->
  new_cb_estimator s t (length vars) known thr (the_tests P) = Ok est -> new_cb_estimator s t (length vars) known thr (the_tests P') = Ok est' ->
  cb_estimate_structure est mode = Ok (es, r) -> cb_estimate_structure est' mode = Ok (es', r') -> es = es'.
Proof.
  intros HL HE Hk L HE' HT HQ HQ' HS HI. apply (C98_chi_square_switched_off vars cards' prior rs k' P P' known thr s t est est' es es' r r' mode); try assumption.
  - apply (legal_more vars cards cards' rs k k'); try assumption. lia.
  - intros j _. exists k. split; [exact Hk|]. exact (beyond_range vars cards rs k j HL HE).
Qed.
Print Assumptions C98_one_state_too_many.

(** What is left of the test for a variable [c] with a declared state that never occurs (whatever the other variables): given
    enough data for the rule of thumb, c and p are found independent given [sep] exactly if the exit rates of every state
    agree; where [c] goes to makes no difference. *)
Theorem C98_only_exit_rates_count vars cards prior rs k P thr s t m c p sep ni i b0 d spc lpc : legal_input vars cards rs -> Forall clock_ok rs -> equal_cards cards k ->
  quantiles_ok P -> imports_to vars cards prior rs s t ->
  structure_get_node_indx s c = Ok ni -> d < k -> never_observed rs ni d ->
  test_ok s c p sep -> structure_get_node_indx s p = Ok i -> mat_get m i ni = Ok b0 ->
  let sp := filter (fun l => lmem l sep) vars in let lp := filter (fun l => lmem l (p :: sep)) vars in
  columns_of s sp spc -> columns_of s lp lpc ->
  exists b, test_answers (MkEnv s t thr (the_tests P)) (length vars) m c p sep b
   /\ (b = true <-> forall a : label -> nat, (forall l, a l < k) ->
        let cm1 := data_cim t (length vars) ni spc k (map a sp) in let cm2 := data_cim t (length vars) ni lpc k (map a lp) in
        enough_data thr k k (map (fun _ => k) sp) cm1 /\ forall x, x < k -> rates_agree P cm1 cm2 x).
Proof.
  intros HL HT HE HQ HI. destruct (imports_det vars cards prior rs s t HL HI) as [-> ->]. intros H1 H2 H3 H4 H5 H6.
  exact (spare_test vars cards prior rs k P thr m c p sep ni i ni b0 d spc lpc HL HT HE HQ H1 H2 H3 H4 H5 H1 H6).
Qed.
Print Assumptions C98_only_exit_rates_count.
Example C98_test_case : let s := struct_of dvars [3;3] None in structure_get_node_indx s "X" = Ok 0 /\ structure_get_node_indx s "Y" = Ok 1
  /\ never_observed [dr1; dr2] 0 2 /\ test_ok s "X" "Y" [] /\ columns_of s (filter (fun l => lmem l []) dvars) [] /\ columns_of s (filter (fun l => lmem l ["Y"]) dvars) [1].
Proof.
  cbn zeta. split; [reflexivity|]. split; [reflexivity|]. split; [exact (beyond_range dvars [2;2] [dr1; dr2] 2 0 (proj1 legal_case) (proj2 legal_case))|].
  split; [split; [cbn; auto|]; split; [cbn; auto|]; split; [repeat constructor; cbn; intuition discriminate|intros q []]|]. split; repeat constructor.
Qed.

(** the price: with the three states that occur the test rejects, with a fourth one declared it does not *)
Theorem C98_a_rejection_is_lost P q : quantiles_ok P ->
  between (f_ppf P (exp_alpha P / 2)%R 30 30) 1%R (f_ppf P (1 - exp_alpha P / 2)%R 30 30) ->
  chi2_ppf P (1 - chi_alpha P)%R 2 = Fin q -> (q < 60)%R ->
  exists c1 c2 c1' c2', computed_cim 3 c1 /\ computed_cim 3 c2 /\ computed_cim 4 c1' /\ computed_cim 4 c2'
   /\ (forall x, x < 3 -> extended_state 3 4 c1 c1' x /\ extended_state 3 4 c2 c2' x)
   /\ stat_tests P 3 c1 c2 = Ok false /\ stat_tests P 4 c1' c2' = Ok true.
Proof.
  intros HQ HF Hq Q60.
  set (r1 := icim [1;1;1]%Qc [[30;30;0];[0;0;0];[0;0;0]]%Z). set (r2 := icim [1;1;1]%Qc [[30;0;30];[0;0;0];[0;0;0]]%Z).
  set (w1 := icim [1;1;1;0]%Qc [[30;30;0;0];[0;0;0;0];[0;0;0;0];[0;0;0;0]]%Z). set (w2 := icim [1;1;1;0]%Qc [[30;0;30;0];[0;0;0;0];[0;0;0;0];[0;0;0;0]]%Z).
  assert (A1 : computed_cim 3 r1) by computed. assert (A2 : computed_cim 3 r2) by computed.
  assert (B1 : computed_cim 4 w1) by computed. assert (B2 : computed_cim 4 w2) by computed.
  exists r1, r2, w1, w2. do 4 (split; [assumption|]). split; [|split].
  - intros x Hx. assert (D : x = 0 \/ x = 1 \/ x = 2) by lia.
    destruct D as [-> |[-> | ->]]; (split; (exists 1%Qc; (split; [reflexivity|]); (split; [reflexivity|]); split;
      [intros y Hy; assert (D : y = 0 \/ y = 1 \/ y = 2) by lia; destruct D as [-> |[-> | ->]]; do 2 eexists; repeat split; vm_compute; reflexivity
      |intros y Hy; assert (y = 3) by lia; subst y; split; vm_compute; reflexivity])).
  - destruct (tests_characterised P HQ 3 _ _ A1 A2) as [b [-> K]]. f_equal. destruct b; [|reflexivity]. exfalso.
    pose proof (proj1 K eq_refl 0 ltac:(lia)) as [Z|[Z|[_ [U|U]]]]; [discriminate Z..| |].
    + destruct U as [[|[|[|j]]] [J1 [J2 [J3 J4]]]]; [congruence|discriminate J3|discriminate J4|lia].
    + specialize (U q Hq). assert (E : pearson (jump_row 3 r1 0) (jump_row 3 r2 0) = 60%R) by (unfold pearson, pearson_cell, Rsum; cbn; field). lra.
  - destruct (tests_characterised P HQ 4 _ _ B1 B2) as [b [-> K]]. f_equal. apply K. intros [|[|[|[|x]]]] Hx; [|left; reflexivity..|lia].
    right; right. split.
    + right. split; [cbn; lia|]. split; [cbn; lia|].
      assert (ES : smoothed_ratio w1 w2 0 = 1%R) by (unfold smoothed_ratio; change (exits _ 0) with 30%Z; change (time_in _ 0) with (Qc2R 1%Qc); rewrite Qc2R_1; field).
      rewrite ES. exact HF.
    + left. exists 3. repeat split; lia.
Qed.
Print Assumptions C98_a_rejection_is_lost.

(** the hypotheses can be met *)
Example C98_case : legal_input dvars [2;2] [dr1; dr2] /\ equal_cards [2;2] 2 /\ equal_cards [3;3] 3 /\ Forall clock_ok [dr1; dr2]
  /\ legal_input dvars [3;3] [dr1; dr2] /\ imports_to dvars [3;3] None [dr1; dr2] (struct_of dvars [3;3] None) (traj_of dvars [dr1; dr2])
  /\ quantiles_ok pex /\ (exists P', P' <> pex /\ quantiles_ok P' /\ same_rate_test pex P')
  /\ between (f_ppf pex (exp_alpha pex / 2)%R 30 30) 1%R (f_ppf pex (1 - exp_alpha pex / 2)%R 30 30)
  /\ chi2_ppf pex (1 - chi_alpha pex)%R 2 = Fin (1 - 1 / 2)%R.
Proof.
  assert (E3 : equal_cards [3;3] 3) by (split; [lia|cbn; intuition]).
  assert (L3 : legal_input dvars [3;3] [dr1; dr2]) by (apply (legal_more dvars [2;2] [3;3] [dr1; dr2] 2 3); [apply legal_case|apply legal_case|exact E3|reflexivity|lia]).
  split; [apply legal_case|]. split; [apply legal_case|]. split; [exact E3|]. split; [repeat constructor; intros ab H; cbn in H; repeat destruct H as [<-|H]; try contradiction; cbn; discriminate|].
  split; [exact L3|]. split; [apply imports_exists, L3|]. split; [exact pex_quantiles|]. split.
  - exists (MkTests (exp_alpha pex) (1/4) (f_ppf pex) (chi2_ppf pex)). split; [intros E; injection E; lra|]. split; [|split; reflexivity].
    destruct pex_quantiles as [Q1 [Q2 [Q3 [Q4 [Q5 Q6]]]]]. split; [exact Q1|]. split; [exact Q2|]. split; [exact Q3|]. split; [exact Q4|]. split; [exact Q5|]. cbn [chi_alpha]. lra.
  - split; [|reflexivity]. unfold pex; cbn [f_ppf exp_alpha]. split; intros z Hz; cbn in Hz; injection Hz as <-; lra.
Qed.
