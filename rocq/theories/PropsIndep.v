(** Property theorems C27 and C58-C61: the two statistical tests. *)
From Coq Require Import Reals Qreals Lra.
From Verif Require Import Base ModelStructure ModelGraph ModelCims ModelData ModelParams ModelCache ModelCtpc ModelFamScore ModelIndep
  SpecStructure SpecGraph SpecComb SpecParams SpecCtpc SpecFamScore SpecIndep
  ProofParams3 ProofCtpc4 ProofFamScore ProofFamScore2 ProofIndep ProofIndep2 PropsParams PropsCtpc.
Open Scope nat_scope.

(** quantile functions with the assumed properties exist *)
Definition pex : test_params :=
  MkTests (1/2) (1/2)
    (fun p r1 r2 => if (r1 =? 0)%Z || (r2 =? 0)%Z then NaN else Fin (p / (1 - p))%R)
    (fun p df => if df =? 0 then NaN else Fin p).
Example pex_quantiles : quantiles_ok pex.
Proof.
  unfold quantiles_ok, pex; cbn [f_ppf chi2_ppf exp_alpha chi_alpha]. split; [|split; [|split; [|split; [|split]]]]; try lra.
  - intros p r1 r2 Hp H1 H2. destruct (Z.eqb_spec r1 0); [lia|]. destruct (Z.eqb_spec r2 0); [lia|]. cbn [orb]. eexists; split; [reflexivity|].
    apply Rdiv_lt_0_compat; lra.
  - intros p r1 r2 [->| ->]; [reflexivity|]. rewrite orb_true_r. reflexivity.
  - intros p df Hp Hd. destruct (Nat.eqb_spec df 0); [lia|]. eexists; split; [reflexivity|lra].
  - reflexivity.
Qed.
Example pex_reciprocal : f_reciprocal pex.
Proof.
  intros p r1 r2 q Hp H1 H2. unfold pex; cbn [f_ppf]. destruct (Z.eqb_spec r1 0); [lia|]. destruct (Z.eqb_spec r2 0); [lia|]. cbn [orb].
  intros E. injection E as <-. f_equal. field. lra.
Qed.

(** C27: the statistic of the chi-square step *)
Theorem C27_statistic_is_Pearsons n c1 c2 x : stats_ok n c1 -> stats_ok n c2 -> x < n ->
  (0 < exits c1 x)%Z -> (0 < exits c2 x)%Z -> ~ unseen_cell n c1 c2 x ->
  chi_stat c1 c2 x = Ok (Fin (pearson (jump_row n c1 x) (jump_row n c2 x))).
Proof. intros H1 H2 Hx. exact (chi_pearson n c1 c2 H1 H2 x Hx). Qed.
Theorem C27_statistic_nonnegative a b : (0 < Rsum a)%R -> (0 < Rsum b)%R -> Forall (fun p => 0 < fst p + snd p)%R (combine a b) -> (0 <= pearson a b)%R.
Proof. exact (pearson_nonneg a b). Qed.
Theorem C27_statistic_symmetric n c1 c2 x v : stats_ok n c1 -> stats_ok n c2 -> x < n ->
  (0 < exits c1 x)%Z -> (0 < exits c2 x)%Z -> ~ unseen_cell n c1 c2 x -> chi_stat c1 c2 x = Ok v -> chi_stat c2 c1 x = Ok v.
Proof.
  intros H1 H2 Hx R1 R2 U E. rewrite (chi_pearson n c1 c2 H1 H2 x Hx R1 R2 U) in E. injection E as <-.
  rewrite (chi_pearson n c2 c1 H2 H1 x Hx R2 R1) by (intros K; apply U, unseen_sym, K). rewrite pearson_sym. reflexivity.
Qed.
Theorem C27_statistic_zero_iff_proportional n c1 c2 x : stats_ok n c1 -> stats_ok n c2 -> x < n ->
  (0 < exits c1 x)%Z -> (0 < exits c2 x)%Z -> ~ unseen_cell n c1 c2 x ->
  (chi_stat c1 c2 x = Ok (Fin 0) <-> forall j, j < n -> j <> x -> (exits c2 x * jumps_of c1 x j = exits c1 x * jumps_of c2 x j)%Z).
Proof.
  intros H1 H2 Hx R1 R2 U. rewrite (chi_pearson n c1 c2 H1 H2 x Hx R1 R2 U).
  assert (HP : Forall (fun p => 0 < fst p + snd p)%R (combine (jump_row n c1 x) (jump_row n c2 x))).
  { unfold jump_row. rewrite combine_map_same. apply Forall_map, Forall_forall. intros j Hj. cbn [fst snd]. rewrite <- plus_IZR. apply IZR_lt.
    apply other_states_In in Hj as [J1 J2]. pose proof (stats_nonneg n c1 H1 x j). pose proof (stats_nonneg n c2 H2 x j).
    destruct (Z.eq_dec (jumps_of c1 x j + jumps_of c2 x j) 0); [|lia]. exfalso. apply U. exists j. repeat split; auto; lia. }
  pose proof (stats_total n c1 H1 x Hx) as T1. pose proof (stats_total n c2 H2 x Hx) as T2.
  assert (Z : pearson (jump_row n c1 x) (jump_row n c2 x) = 0%R <-> proportional (jump_row n c1 x) (jump_row n c2 x)).
  { apply pearson_zero; [rewrite <- T1; apply IZR_lt, R1|rewrite <- T2; apply IZR_lt, R2|exact HP]. }
  transitivity (pearson (jump_row n c1 x) (jump_row n c2 x) = 0%R); [split; intros K; [injection K; auto|rewrite K; reflexivity]|].
  rewrite Z. unfold proportional. rewrite <- T1, <- T2. unfold jump_row. rewrite combine_map_same, Forall_map, Forall_forall. cbn [fst snd].
  split; intros K j.
  - intros J1 J2. specialize (K j (proj2 (other_states_In n x j) (conj J1 J2))). rewrite <- !mult_IZR in K. apply eq_IZR, K.
  - intros Hj. apply other_states_In in Hj as [J1 J2]. rewrite <- !mult_IZR. f_equal. apply K; assumption.
Qed.
Theorem C27_proportional_rows_never_reject P n c1 c2 x : quantiles_ok P -> computed_cim n c1 -> computed_cim n c2 -> x < n ->
  proportional (jump_row n c1 x) (jump_row n c2 x) -> chi_test_state P n c1 c2 x = Ok true.
Proof. exact (proportional_chi P n c1 c2 x). Qed.
Theorem C27_estimated_cims_qualify t tot ni pis c u : Forall (fun q => 0 <= q)%Qc (t_times t) -> computed_cim c (data_cim t tot ni pis c u).
Proof. exact (exact_cim_computed t tot ni pis c u). Qed.
Print Assumptions C27_statistic_is_Pearsons. Print Assumptions C27_statistic_nonnegative. Print Assumptions C27_statistic_symmetric.
Print Assumptions C27_statistic_zero_iff_proportional. Print Assumptions C27_proportional_rows_never_reject. Print Assumptions C27_estimated_cims_qualify.

Definition icim ts ms := compute_cim_coefficients (new_cim ts ms).
Definition ia := icim [1; 1; 1]%Qc [[3;1;2];[3;4;1];[2;2;4]]%Z.
Definition ib := icim [1; Q2Qc 2; 0]%Qc [[6;2;4];[1;2;1];[0;0;0]]%Z.
Ltac computed := split; [split; [reflexivity|split; [reflexivity|split]]|reflexivity];
  [let x := fresh "x" in let T := fresh "T" in let H := fresh "H" in intros x T H;
   repeat (destruct x as [|x]; [cbn in H; injection H as <-; discriminate|]); cbn in H; destruct x; discriminate
  |let x := fresh "x" in let row := fresh "row" in let H := fresh "H" in intros x row H;
   repeat (destruct x as [|x]; [cbn in H; injection H as <-; split; [reflexivity|split; [repeat constructor; lia|reflexivity]]|]);
   cbn in H; destruct x; discriminate].
Example ia_ok : computed_cim 3 ia. Proof. computed. Qed.
Example ib_ok : computed_cim 3 ib. Proof. computed. Qed.
(** state 0 of the two CIMs: rows (1,2) and (2,4) *)
Example C27_case : (0 < exits ia 0)%Z /\ (0 < exits ib 0)%Z /\ ~ unseen_cell 3 ia ib 0 /\ chi_stat ia ib 0 = Ok (Fin 0).
Proof.
  split; [reflexivity|]. split; [reflexivity|].
  assert (U : ~ unseen_cell 3 ia ib 0) by (intros [[|[|[|j]]] [A [B [C D]]]]; cbn in C, D; try lia; discriminate).
  split; [exact U|]. apply (C27_statistic_zero_iff_proportional 3 ia ib 0 (proj1 ia_ok) (proj1 ib_ok)); [lia|reflexivity|reflexivity|exact U|].
  intros [|[|[|j]]] A B; try lia; reflexivity.
Qed.
(** rows (3,1) and (1,1): not proportional, the statistic is positive *)
Example C27_case_positive : exists v, chi_stat ia ib 1 = Ok (Fin v) /\ (0 < v)%R.
Proof.
  assert (U : ~ unseen_cell 3 ia ib 1) by (intros [[|[|[|j]]] [A [B [C D]]]]; cbn in C, D; try lia; discriminate).
  eexists. split; [apply (C27_statistic_is_Pearsons 3 ia ib 1 (proj1 ia_ok) (proj1 ib_ok)); [lia|reflexivity|reflexivity|exact U]|].
  rewrite pearson_short; unfold jump_row, other_states, Rsum; cbn; try lra. repeat constructor; cbn; lra.
Qed.

(** C58: a destination that neither CIM has seen, or a state left in only one of them, switches the
    chi-square step off *)
Theorem C58_unseen_destination_disables P n c1 c2 x : quantiles_ok P -> computed_cim n c1 -> computed_cim n c2 -> x < n ->
  unseen_cell n c1 c2 x -> chi_test_state P n c1 c2 x = Ok true.
Proof.
  intros HQ H1 H2 Hx U. destruct (chi_state P HQ n c1 c2 H1 H2 x Hx) as [b [E K]]. rewrite E. f_equal. apply K. right; right; left; exact U.
Qed.
Theorem C58_no_exits_disable_both_steps P n c1 c2 x : quantiles_ok P -> computed_cim n c1 -> computed_cim n c2 -> x < n ->
  exits c1 x = 0%Z \/ exits c2 x = 0%Z -> exp_test_state P c1 c2 x = Ok true /\ chi_test_state P n c1 c2 x = Ok true.
Proof.
  intros HQ H1 H2 Hx R. destruct (chi_state P HQ n c1 c2 H1 H2 x Hx) as [b [E K]]. destruct (exp_state P HQ n c1 c2 H1 H2 x Hx) as [b' [E' K']].
  rewrite E, E'. split; f_equal; [apply K'|apply K]; unfold exp_accepts, chi_accepts; tauto.
Qed.
(** opposite behaviour that passes: from state 0 the first CIM always enters 1, the second always enters 2 *)
Theorem C58_opposite_rows_pass : exists c1 c2, computed_cim 4 c1 /\ computed_cim 4 c2
  /\ nth 0 (c_trans c1) [] = [30;30;0;0]%Z /\ nth 0 (c_trans c2) [] = [30;0;30;0]%Z
  /\ stat_tests pex 4 c1 c2 = Ok true
  /\ pearson [30; 0]%R [0; 30]%R = 60%R.
Proof.
  exists (icim [1;1;1;1]%Qc [[30;30;0;0];[0;0;0;0];[0;0;0;0];[0;0;0;0]]%Z), (icim [1;1;1;1]%Qc [[30;0;30;0];[0;0;0;0];[0;0;0;0];[0;0;0;0]]%Z).
  assert (A : computed_cim 4 (icim [1;1;1;1]%Qc [[30;30;0;0];[0;0;0;0];[0;0;0;0];[0;0;0;0]]%Z)) by computed.
  assert (B : computed_cim 4 (icim [1;1;1;1]%Qc [[30;0;30;0];[0;0;0;0];[0;0;0;0];[0;0;0;0]]%Z)) by computed.
  split; [exact A|]. split; [exact B|]. split; [reflexivity|]. split; [reflexivity|]. split.
  - destruct (tests_characterised pex pex_quantiles 4 _ _ A B) as [b [-> K]]. f_equal. apply K. intros [|[|[|[|x]]]] Hx; [|left; reflexivity..|lia].
    right; right. split.
    + right. split; [cbn; lia|]. split; [cbn; lia|].
      assert (ES : smoothed_ratio (icim [1;1;1;1]%Qc [[30;30;0;0];[0;0;0;0];[0;0;0;0];[0;0;0;0]]%Z) (icim [1;1;1;1]%Qc [[30;0;30;0];[0;0;0;0];[0;0;0;0];[0;0;0;0]]%Z) 0 = 1%R).
      { unfold smoothed_ratio. change (exits _ 0) with 30%Z. change (time_in _ 0) with (Qc2R 1%Qc).
        rewrite Qc2R_1. field. }
      rewrite ES. unfold pex; cbn [f_ppf exp_alpha]. split; intros z Hz; cbn in Hz; injection Hz as <-; lra.
    + left. exists 3. repeat split; lia.
  - unfold pearson, pearson_cell, Rsum. cbn. field.
Qed.
Print Assumptions C58_unseen_destination_disables. Print Assumptions C58_no_exits_disable_both_steps. Print Assumptions C58_opposite_rows_pass.

(** C59 *)
Theorem C59_chi_square_never_rejects_for_binary_variables P c1 c2 x : quantiles_ok P -> computed_cim 2 c1 -> computed_cim 2 c2 -> x < 2 ->
  chi_test_state P 2 c1 c2 x = Ok true.
Proof. exact (binary_chi P c1 c2 x). Qed.
Theorem C59_binary_decision_is_the_exponential_test P c1 c2 : quantiles_ok P -> computed_cim 2 c1 -> computed_cim 2 c2 ->
  stat_tests P 2 c1 c2 = all_states (exp_test_state P c1 c2) [0; 1].
Proof.
  intros HQ H1 H2. unfold stat_tests. change (seq 0 2) with [0;1]. destruct (all_states (exp_test_state P c1 c2) [0; 1]) as [[|]|y]; try reflexivity.
  cbn [bind all_states]. rewrite !binary_chi by (auto; lia). reflexivity.
Qed.
Print Assumptions C59_chi_square_never_rejects_for_binary_variables. Print Assumptions C59_binary_decision_is_the_exponential_test.
Definition i2a := icim [Q2Qc 3; 1]%Qc [[5;5];[4;4]]%Z.
Definition i2b := icim [Q2Qc 1; 1]%Qc [[1;1];[4;4]]%Z.
Example C59_case : computed_cim 2 i2a /\ computed_cim 2 i2b /\ quantiles_ok pex.
Proof. split; [computed|split; [computed|exact pex_quantiles]]. Qed.

(** C60: with a single transition on one side and more on the other the exponential test always rejects,
    with a single transition on both sides it never does *)
Theorem C60_single_transition P n c1 c2 x : quantiles_ok P -> computed_cim n c1 -> computed_cim n c2 -> x < n ->
  (exits c1 x = 1%Z /\ (2 <= exits c2 x)%Z -> exp_test_state P c1 c2 x = Ok false)
  /\ ((2 <= exits c1 x)%Z /\ exits c2 x = 1%Z -> exp_test_state P c1 c2 x = Ok false)
  /\ (exits c1 x = 1%Z /\ exits c2 x = 1%Z -> exp_test_state P c1 c2 x = Ok true).
Proof.
  intros HQ H1 H2 Hx. destruct (exp_state P HQ n c1 c2 H1 H2 x Hx) as [b [-> K]]. unfold exp_accepts in K.
  split; [|split]; intros [A B]; f_equal.
  - destruct b; [|reflexivity]. exfalso. destruct (proj1 K eq_refl) as [H|[H|[H|[H _]]]]; lia.
  - destruct b; [|reflexivity]. exfalso. destruct (proj1 K eq_refl) as [H|[H|[H|[H [H' _]]]]]; lia.
  - apply K. tauto.
Qed.
(** in particular equal rates can be rejected: one transition in 1 time unit against five in 5 *)
Theorem C60_equal_rates_rejected P : quantiles_ok P -> exists c1 c2, computed_cim 2 c1 /\ computed_cim 2 c2
  /\ (forall x, x < 2 -> (IZR (exits c1 x) / time_in c1 x = 1)%R /\ (IZR (exits c2 x) / time_in c2 x = 1)%R)
  /\ stat_tests P 2 c1 c2 = Ok false.
Proof.
  intros HQ. exists (icim [Q2Qc 5; Q2Qc 5]%Qc [[5;5];[5;5]]%Z), (icim [1; 1]%Qc [[1;1];[1;1]]%Z).
  assert (A : computed_cim 2 (icim [Q2Qc 5; Q2Qc 5]%Qc [[5;5];[5;5]]%Z)) by computed.
  assert (B : computed_cim 2 (icim [1; 1]%Qc [[1;1];[1;1]]%Z)) by computed.
  split; [exact A|]. split; [exact B|]. split.
  - assert (Q5 : Qc2R (Q2Qc 5) = 5%R) by (change (Q2Qc 5) with (Qc_of_Z 5); apply Qc2R_Z).
    intros [|[|x]] Hx; [| |lia]; unfold time_in, exits, jumps_of; cbn [nth icim compute_cim_coefficients new_cim c_times c_trans];
      rewrite Q5, Qc2R_1; lra.
  - unfold stat_tests. change (seq 0 2) with [0;1]. cbn [all_states].
    rewrite (proj1 (proj2 (C60_single_transition P 2 _ _ 0 HQ A B ltac:(lia)))) by (split; [cbn; lia|reflexivity]). reflexivity.
Qed.
Print Assumptions C60_single_transition. Print Assumptions C60_equal_rates_rejected.

(** C61: exactly which pairs of CIMs pass *)
Theorem C61_pairs_that_pass P n c1 c2 : quantiles_ok P -> computed_cim n c1 -> computed_cim n c2 ->
  exists b, stat_tests P n c1 c2 = Ok b /\ (b = true <-> forall x, x < n -> state_accepts P n c1 c2 x).
Proof. intros HQ. exact (tests_characterised P HQ n c1 c2). Qed.
Theorem C61_order_of_the_cims_irrelevant P n c1 c2 : quantiles_ok P -> f_reciprocal P -> computed_cim n c1 -> computed_cim n c2 ->
  stat_tests P n c1 c2 = stat_tests P n c2 c1.
Proof. exact (tests_sym P n c1 c2). Qed.
Theorem C61_identical_cims_pass P n c : quantiles_ok P -> computed_cim n c ->
  (forall x, x < n -> (2 <= exits c x)%Z -> between (f_ppf P (exp_alpha P / 2)%R (exits c x) (exits c x)) 1 (f_ppf P (1 - exp_alpha P / 2)%R (exits c x) (exits c x))) ->
  stat_tests P n c c = Ok true.
Proof.
  intros HQ H HB. destruct (tests_characterised P HQ n c c H H) as [b [-> K]]. f_equal. apply K. intros x Hx.
  pose proof (stats_nonneg n c (proj1 H) x x) as N. fold (exits c x) in N. unfold state_accepts.
  destruct (Z.eq_dec (exits c x) 0) as [E|E]; [auto|]. right; right. split.
  - destruct (Z.eq_dec (exits c x) 1) as [E1|E1]; [left; auto|]. right. split; [lia|]. split; [lia|].
    destruct (stats_time n c (proj1 H) x Hx) as [T _]. assert (2 <= IZR (exits c x))%R by (apply IZR_le; lia).
    replace (smoothed_ratio c c x) with 1%R by (unfold smoothed_ratio; field; repeat split; lra). apply HB; [exact Hx|lia].
  - destruct (unseen_dec n c c x) as [U|U]; [left; exact U|right]. intros q Hq.
    assert (Z : chi_stat c c x = Ok (Fin 0)).
    { apply (C27_statistic_zero_iff_proportional n); auto; try apply H; try lia. }
    rewrite (chi_pearson n c c (proj1 H) (proj1 H) x Hx) in Z by (assumption || lia). injection Z as ->.
    destruct HQ as [_ [_ [Q3 [Q4 [_ [A1 A2]]]]]]. destruct (Nat.eq_dec (n - 1) 0) as [En|En].
    + rewrite En in Hq. rewrite Q4 in Hq. discriminate.
    + destruct (Q3 (1 - chi_alpha P)%R (n - 1)) as [q' [Eq Pq]]; [lra|lia|]. rewrite Hq in Eq. injection Eq as <-. lra.
Qed.
(** the conditional independence test of the estimator with these tests, stated on the data (cf. C19) *)
Theorem C61_independence_test_on_data P e tot k c p sep m i j b0 ni spc lpc : quantiles_ok P ->
  e_tests e = the_tests P -> Forall (fun q => 0 <= q)%Qc (t_times (e_traj e)) ->
  wf_structure (e_struct e) -> data_ok (e_struct e) (e_traj e) -> total_variables_number (e_struct e) = tot ->
  0 < k -> (forall x, In x (nodes_values (e_struct e)) -> x = k) -> test_ok (e_struct e) c p sep ->
  mat_get m i j = Ok b0 ->
  structure_get_node_indx (e_struct e) c = Ok ni ->
  columns_of (e_struct e) (filter (fun l => lmem l sep) (nodes_labels (e_struct e))) spc ->
  columns_of (e_struct e) (filter (fun l => lmem l (p :: sep)) (nodes_labels (e_struct e))) lpc ->
  exists b st', complete_test e (MkState m empty_cache) p c sep k tot i j = Ok (b, st')
   /\ (b = true <-> forall a : label -> nat, (forall x, a x < k) ->
        let sp := filter (fun l => lmem l sep) (nodes_labels (e_struct e)) in
        let lp := filter (fun l => lmem l (p :: sep)) (nodes_labels (e_struct e)) in
        let cm1 := data_cim (e_traj e) tot ni spc k (map a sp) in
        let cm2 := data_cim (e_traj e) tot ni lpc k (map a lp) in
        enough_data (e_threshold e) k k (map (fun _ => k) sp) cm1
        /\ forall x, x < k -> state_accepts P k cm1 cm2 x).
Proof.
  intros HQ HE HT Hwf Hd Ht Hk HV Hto Hm Hni Hs Hl.
  destruct (C19_independence_test_pairs e tot k c p sep m i j b0 ni spc lpc Hwf Hd Ht Hk HV Hto Hm Hni Hs Hl) as [b [st' [E K]]].
  exists b, st'. split; [exact E|]. rewrite K. unfold pair_accepts. rewrite HE. cbn zeta.
  split; intros F a Ha; destruct (F a Ha) as [F1 F2]; (split; [exact F1|]);
    apply (the_tests_iff P HQ k _ _ (exact_cim_computed _ _ _ _ _ _ HT) (exact_cim_computed _ _ _ _ _ _ HT)); exact F2.
Qed.
Print Assumptions C61_pairs_that_pass. Print Assumptions C61_order_of_the_cims_irrelevant.
Print Assumptions C61_identical_cims_pass. Print Assumptions C61_independence_test_on_data.
Example C61_case : stat_tests pex 3 ia ib = stat_tests pex 3 ib ia.
Proof. exact (C61_order_of_the_cims_irrelevant pex 3 ia ib pex_quantiles pex_reciprocal ia_ok ib_ok). Qed.
