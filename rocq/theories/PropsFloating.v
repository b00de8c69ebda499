(** Property theorem C69: the parameters computed in IEEE double precision. *)
From Flocq Require Import Core BinarySingleNaN.
From Coq Require Import Reals Lra.
From Verif Require Import Base ModelStructure ModelGraph ModelCims ModelData ModelParams ModelFamScore ModelFloating
  SpecStructure SpecGraph SpecComb SpecParams SpecData SpecInvariance SpecFloating
  Lib ProofGraph ProofComb ProofParams ProofParams3 ProofFamScore2 ProofIndep ProofData3 ProofInvariance ProofFloating ProofFloating2 ProofFloating3 ProofFloating4 ProofFloating5 PropsData PropsInvariance.
Open Scope nat_scope.

Section data.
Variables (vars : list label) (cards : list nat) (prior : option (list edge)) (rs : list raw) (tss : list (list f64)).
Notation prior_edges := (match prior with None => [] | Some es => es end).
Notation asked s es v c ni pis ps := (edges_within vars es /\ edges_within vars prior_edges
  /\ node_view s (es ++ edges_list s) v c ni pis ps /\ 0 < c /\ compat c ps /\ index_fits c ps) (only parsing).
(** the input: legal data whose clock readings are float64 numbers, clocks that do not run backwards, at most
    2^1000 time units and 2^51 rows *)
Notation float_input := (legal_input vars cards rs /\ Forall2 read_as tss rs /\ Forall clock_ok rs
  /\ (Qc2R (Qcsum (map duration rs)) <= 2 ^ 1000)%R /\ (Z.of_nat (observed_steps rs) <= 2 ^ 51)%Z).

(** C69: every residence time is off by at most (n + 1) * 2^-52 of its value, every count is exact, every
    coefficient is off by at most (n + 3) * 2^-52 of its value; nothing overflows and no NaN appears.
    n is the number of rows. *)
Theorem C69_float_parameters s t : float_input -> imports_to vars cards prior rs s t ->
  forall es v c ni pis ps, asked s es v c ni pis ps ->
  exists g fs, ng_fast_init (fresh_graph s es) v = Ok g
    /\ f_compute_parameters_for_node (f_times tss) t g v = Ok fs
    /\ length (so_actual_cims fs) = nat_prod ps
    /\ forall u, config_ok ps u -> exists fc, nth_error (so_actual_cims fs) (config_rank ps u) = Some fc
       /\ length (fc_times fc) = c /\ forall x, x < c -> exists T row qrow,
          nth_error (fc_times fc) x = Some T /\ nth_error (fc_trans fc) x = Some row /\ nth_error (fc_cim fc) x = Some qrow
          /\ length row = c /\ length qrow = c
          /\ within (observed_steps rs + 1) T (Qc2R (raw_dwell rs (ni :: pis) (x :: u)))
          /\ forall x', x' < c -> nth_error row x' = Some (true_count rs ni pis c u x x')
             /\ exists q, nth_error qrow x' = Some q /\ within (observed_steps rs + 3) q (true_intensity rs ni pis c u x x').
Proof.
  intros [HL [HR [HC [HD HN]]]] HI es v c ni pis ps [A1 [A2 [A3 [A4 [A5 A6]]]]].
  apply (imports_det vars cards prior rs s t HL) in HI as [-> ->].
  destruct (f_raw_params vars cards prior rs tss HL HR HC HD HN es v c ni pis ps A1 A2 A3 A4 A5 A6) as [g [fcs [G1 [G2 G3]]]].
  exists g, (MkSetOfCims (build_p_comb_structure_for_a_node ps) fcs). split; [exact G1|]. split; [exact G2|]. cbn [so_actual_cims].
  split; [rewrite (Forall2_length _ _ _ G3), map_length; apply le_enum_length|].
  intros u Hu. destruct (Forall2_nth_error_r _ _ _ G3 (config_rank ps u) (ProofInvariance.raw_cim rs ni pis c u)) as [fc [F1 F2]].
  { rewrite map_nth_error_iff, (le_enum_rank ps u Hu). reflexivity. }
  exists fc. split; [exact F1|]. apply accurate_read; assumption.
Qed.

(** C69: the same against the estimation in exact arithmetic, which all the other properties are about *)
Theorem C69_agrees_with_exact s t : float_input -> imports_to vars cards prior rs s t ->
  forall es v c ni pis ps, asked s es v c ni pis ps ->
  exists g fs soc, ng_fast_init (fresh_graph s es) v = Ok g
    /\ f_compute_parameters_for_node (f_times tss) t g v = Ok fs /\ compute_parameters_for_node t g v = Ok soc
    /\ so_p_combs fs = so_p_combs soc
    /\ Forall2 (fun fc cm => Forall2 (fun x q => within (observed_steps rs + 1) x (Qc2R q)) (fc_times fc) (c_times cm)
                 /\ fc_trans fc = c_trans cm
                 /\ Forall2 (Forall2 (fun x q => within (observed_steps rs + 3) x (Qc2R q))) (fc_cim fc) (c_cim cm))
               (so_actual_cims fs) (so_actual_cims soc).
Proof.
  intros [HL [HR [HC [HD HN]]]] HI es v c ni pis ps [A1 [A2 [A3 [A4 [A5 A6]]]]].
  apply (imports_det vars cards prior rs s t HL) in HI as [-> ->].
  destruct (f_raw_params vars cards prior rs tss HL HR HC HD HN es v c ni pis ps A1 A2 A3 A4 A5 A6) as [g [fcs [G1 [G2 G3]]]].
  destruct (raw_params vars cards prior rs es v c ni pis ps HL A1 A2 A3 A4 A5) as [g' [G1' G2']]. rewrite G1 in G1'. injection G1' as <-.
  eexists g, _, _. split; [exact G1|]. split; [exact G2|]. split; [exact G2'|]. cbn [so_p_combs so_actual_cims]. split; [reflexivity|].
  eapply Forall2_impl; [|exact G3]. intros fc cm [B1 [B2 B3]]. split; [|split; [exact B2|]].
  - eapply Forall2_impl; [|exact B1]. intros x q [Hq _]. apply fclose_within; [apply (steps_u (observed_steps rs)); [exact HN|lia]|exact Hq].
  - eapply Forall2_impl; [|exact B3]. intros r q Hr. eapply Forall2_impl; [|exact Hr]. intros x y Hx. apply fclose_within; [apply (steps_u (observed_steps rs)); [exact HN|lia]|exact Hx].
Qed.
End data.

(** C69: a number within less than 2^52 units of relative error has the sign of the exact one; so an estimated
    intensity off the diagonal is positive in floating point too *)
Theorem C69_signs k x y : within k x y -> (Z.of_nat k < 2 ^ 52)%Z ->
  (0 < y -> 0 < B2R x)%R /\ (y < 0 -> B2R x < 0)%R /\ (y = 0 -> B2R x = 0)%R.
Proof.
  intros [_ H] Hk. assert (K : (0 <= INR k / 2 ^ 52 < 1)%R).
  { assert (P : (0 < 2 ^ 52)%R) by (apply pow_lt; lra). split; [apply Rmult_le_pos; [apply pos_INR|apply Rlt_le, Rinv_0_lt_compat, P]|].
    apply Rmult_lt_reg_r with (2 ^ 52)%R; [exact P|]. unfold Rdiv. rewrite Rmult_assoc, Rinv_l, Rmult_1_r, Rmult_1_l by lra. rewrite INR_IZR_INZ, pow_IZR. apply IZR_lt. exact Hk. }
  set (e := (INR k / 2 ^ 52)%R) in *. clearbody e. split; [|split]; intros Hy.
  - rewrite (Rabs_pos_eq y) in H by lra. apply Rabs_le_inv in H. nra.
  - rewrite (Rabs_left y) in H by lra. apply Rabs_le_inv in H. nra.
  - subst y. rewrite Rabs_R0, Rmult_0_r in H. pose proof (Rabs_pos (B2R x - 0)). assert (Z : Rabs (B2R x - 0) = 0%R) by lra.
    apply Rabs_eq_R0 in Z || (destruct (Req_dec (B2R x - 0) 0) as [E|E]; [lra|apply Rabs_no_R0 in E; contradiction]). lra.
Qed.

(** ** a concrete case: the data of C16, two trajectories, 4 rows; clock readings 0, 1/2, 2, 3 and 0, 1/4 *)
Definition half : f64 := @B754_finite 53 1024 false 4503599627370496 (-53) eq_refl.
Definition quarter : f64 := @B754_finite 53 1024 false 4503599627370496 (-54) eq_refl.
Definition f_clocks : list (list f64) := [[f_of_Z 0; half; f_of_Z 2; f_of_Z 3]; [f_of_Z 0; quarter]].
Example C69_case : legal_input dvars [2;2] [dr1; dr2] /\ Forall2 read_as f_clocks [dr1; dr2] /\ Forall clock_ok [dr1; dr2]
  /\ (Qc2R (Qcsum (map duration [dr1; dr2])) <= 2 ^ 1000)%R /\ (Z.of_nat (observed_steps [dr1; dr2]) <= 2 ^ 51)%Z
  /\ index_fits 2 [2].
Proof.
  split; [apply legal_case|]. split.
  { assert (HZ : forall z, (Z.abs z <= 8)%Z -> forall q, q = Qc_of_Z z -> is_finite (f_of_Z z) = true /\ B2R (f_of_Z z) = Qc2R q) by (intros z Hz q ->; rewrite Qc2R_Z; apply f_of_Z_ok; lia).
    unfold f_clocks, dr1, dr2, read_as. repeat (apply Forall2_cons || apply Forall2_nil); cbn [fst];
      try (apply HZ; [lia|apply Qc_is_canon; reflexivity]).
    all: split; [reflexivity|]; unfold Qc2R, Q2R, half, quarter, B2R, F2R; cbn [Fnum Fexp cond_Zopp this Q2Qc Qred]; change (Qnum (Qred (1 # 2))) with 1%Z; change (QDen (Qred (1 # 2))) with 2%Z; change (Qnum (Qred (1 # 4))) with 1%Z; change (QDen (Qred (1 # 4))) with 4%Z.
    - change (B (-53)) with (/ IZR (2 ^ 53))%R. cbn. lra.
    - change (B (-54)) with (/ IZR (2 ^ 54))%R. cbn. lra. }
  split; [repeat constructor; intros ab Hab; cbn in Hab; intuition; subst; cbn; unfold Qcle; cbn; discriminate|].
  split; [|split; vm_compute; discriminate].
  replace (Qcsum (map duration [dr1; dr2])) with (Q2Qc (13 # 4)) by (apply Qc_is_canon; vm_compute; reflexivity).
  apply Rle_trans with (2 ^ 2)%R; [unfold Qc2R, Q2R; cbn; lra|apply Rle_pow; [lra|lia]].
Qed.

(** C69: the sums are not exact: X stays in state 0 for 1 time unit in one trajectory and for 2^-60 in another one;
    the stored residence time is 1 *)
Definition tiny : f64 := @B754_finite 53 1024 false 4503599627370496 (-112) eq_refl.
Definition two_stays : list raw := [[(0%Qc, [0;0]%Z); (1%Qc, [1;0]%Z)]; [(0%Qc, [0;0]%Z); (Q2Qc (1 # 2 ^ 60), [1;0]%Z)]].
Definition two_clocks : list (list f64) := [[f_of_Z 0; f_of_Z 1]; [f_of_Z 0; tiny]].
Theorem C69_exactness_refuted : legal_input dvars [2;2] two_stays /\ Forall2 read_as two_clocks two_stays
  /\ exists s t g fs fc T, imports_to dvars [2;2] None two_stays s t /\ ng_fast_init (fresh_graph s []) "X" = Ok g
     /\ f_compute_parameters_for_node (f_times two_clocks) t g "X" = Ok fs
     /\ nth_error (so_actual_cims fs) 0 = Some fc /\ nth_error (fc_times fc) 0 = Some T
     /\ B2R T = 1%R /\ raw_dwell two_stays [0] [0] = (1 + Q2Qc (1 # 2 ^ 60))%Qc.
Proof.
  assert (HL : legal_input dvars [2;2] two_stays).
  { split; [exact d_header|]. split; [discriminate|]. split; [reflexivity|]. split.
    + apply Forall_cons; [split|apply Forall_cons; [split|apply Forall_nil]].
      all: intros o H; cbn in H; repeat (destruct H as [<-|H]; [first [reflexivity|split; cbn; repeat constructor; lia]|]); contradiction.
    + eexists. split; [left; reflexivity|cbn; lia]. }
  split; [exact HL|split].
  - assert (HZ : forall z, (Z.abs z <= 8)%Z -> forall q, q = Qc_of_Z z -> is_finite (f_of_Z z) = true /\ B2R (f_of_Z z) = Qc2R q) by (intros z Hz q ->; rewrite Qc2R_Z; apply f_of_Z_ok; lia).
    unfold two_clocks, two_stays, read_as. repeat (apply Forall2_cons || apply Forall2_nil); cbn [fst]; try (apply HZ; [lia|apply Qc_is_canon; reflexivity]).
    split; [reflexivity|]. unfold Qc2R, Q2R, tiny, B2R, F2R. cbn [Fnum Fexp cond_Zopp this Q2Qc].
    change (Qred (1 # 2 ^ 60)) with (1 # 2 ^ 60). cbn [Qnum Qden]. change (B (-112)) with (/ IZR (2 ^ 112))%R. cbn. lra.
  - do 6 eexists. split; [apply imports_exists, HL|]. split; [reflexivity|]. split; [reflexivity|]. split; [reflexivity|]. split; [reflexivity|]. split.
    + rewrite <- SF2R_B2SF. match goal with |- SF2R _ ?x = _ => let y := eval vm_compute in x in replace x with y by (vm_compute; reflexivity) end.
      unfold SF2R, F2R. cbn [Fnum Fexp cond_Zopp]. change (B (-52)) with (/ IZR (2 ^ 52))%R. cbn. lra.
    + apply Qc_is_canon. vm_compute. reflexivity.
Qed.

Print Assumptions C69_exactness_refuted.
Print Assumptions C69_float_parameters.
Print Assumptions C69_agrees_with_exact.
Print Assumptions C69_signs.
