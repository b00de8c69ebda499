(** Property theorems C85: how the estimated intensities relate to the observed rates. *)
From Verif Require Import Base Lib ModelStructure ModelGraph ModelCims ModelData ModelParams ModelFamScore SpecStructure SpecGraph SpecComb SpecParams SpecData SpecCtpc SpecInvariance SpecFloating SpecBias
  LibQc ProofGraph ProofComb ProofParams ProofParams2 ProofParams3 ProofInvariance ProofUnit3 ProofIndep ProofUnit ProofFamScore2 ProofBias ProofBias2 ProofBias3 PropsData PropsInvariance.
From Coq Require Import Reals Lra.
Close Scope R_scope. Open Scope nat_scope.

Section node.
Variables (vars : list label) (cards : list nat) (prior : option (list edge)) (es : list edge) (v : label) (c ni : nat) (pis ps : list nat).
Notation learned := (learned vars cards prior es v c ni pis ps).
Notation legal := (legal_input vars cards).
Notation time rs u x := (time_spent rs ni pis u x).
Notation rate rs u x y := (observed_rate rs ni pis c u x y).
Notation net rs u x y := (net_transitions rs ni pis c u x y).

(** every intensity, on the diagonal or not, is the average of the observed rate, weighted with the time spent, and of the
    number 1, weighted with one unit of time *)
Theorem C85_weighted_average rs soc u x y q : legal rs -> learned rs soc -> config_ok ps u -> x < c -> y < c -> (0 < time rs u x)%Qc ->
  intensity ps soc u x y q -> (q = time rs u x / (time rs u x + 1) * rate rs u x y + 1 / (time rs u x + 1) * 1)%Qc.
Proof. intros HL H Hu Hx Hy HT Hq. apply (entry_is vars cards prior es v c ni pis ps rs soc u x y q HL H Hu Hx Hy) in Hq. rewrite Hq. apply weighted, HT. Qed.
(** so the error is known exactly, and is as small as one likes when the variable has been observed long enough *)
Theorem C85_error rs soc u x y q : legal rs -> learned rs soc -> config_ok ps u -> x < c -> y < c -> (0 < time rs u x)%Qc ->
  intensity ps soc u x y q -> (Qcabs (q - rate rs u x y) = Qcabs (1 - rate rs u x y) / (time rs u x + 1))%Qc.
Proof. intros HL H Hu Hx Hy HT Hq. apply (entry_is vars cards prior es v c ni pis ps rs soc u x y q HL H Hu Hx Hy) in Hq. rewrite Hq. apply bias_error, HT. Qed.
Theorem C85_enough_data rs soc u x y q eps : legal rs -> learned rs soc -> config_ok ps u -> x < c -> y < c -> (0 < time rs u x)%Qc ->
  intensity ps soc u x y q -> (0 < eps)%Qc -> (Qcabs (1 - rate rs u x y) <= eps * time rs u x)%Qc -> (Qcabs (q - rate rs u x y) < eps)%Qc.
Proof. intros HL H Hu Hx Hy HT Hq He. apply (entry_is vars cards prior es v c ni pis ps rs soc u x y q HL H Hu Hx Hy) in Hq. rewrite Hq. apply bias_small; assumption. Qed.
(** the intensities learned from two data sets together, from those learned separately *)
Theorem C85_two_data_sets rs1 rs2 soc1 soc2 soc u x y q1 q2 q : legal rs1 -> legal rs2 -> Forall clock_ok rs1 -> Forall clock_ok rs2 ->
  learned rs1 soc1 -> learned rs2 soc2 -> learned (rs1 ++ rs2) soc ->
  config_ok ps u -> x < c -> y < c -> intensity ps soc1 u x y q1 -> intensity ps soc2 u x y q2 -> intensity ps soc u x y q ->
  ((time rs1 u x + time rs2 u x + 1) * q = (time rs1 u x + 1) * q1 + (time rs2 u x + 1) * q2 - 1)%Qc.
Proof.
  intros L1 L2 C1 C2 H1 H2 H Hu Hx Hy Q1 Q2 Q. pose proof (legal_app _ _ _ _ L1 L2) as L12.
  apply (entry_is vars cards prior es v c ni pis ps rs1 soc1 u x y q1 L1 H1 Hu Hx Hy) in Q1.
  apply (entry_is vars cards prior es v c ni pis ps rs2 soc2 u x y q2 L2 H2 Hu Hx Hy) in Q2.
  apply (entry_is vars cards prior es v c ni pis ps (rs1 ++ rs2) soc u x y q L12 H Hu Hx Hy) in Q. rewrite net_app, spent_app, Qc_of_Z_add in Q. rewrite Q, Q1, Q2.
  pose proof (spent_nonneg ni pis rs1 u x C1) as N1. pose proof (spent_nonneg ni pis rs2 u x C2) as N2.
  assert (N : (0 <= time rs1 u x + time rs2 u x)%Qc) by (rewrite <- (Qcplus_0_l 0); apply Qcplus_le_compat; assumption).
  apply Qc_plus1_pos, Qc_pos_neq in N1, N2, N. field. auto.
Qed.
(** n copies of the same trajectories: the observed rate is the same, the error goes to 0 *)
Theorem C85_copies n rs soc u x y q : 0 < n -> legal rs -> learned (copies n rs) soc -> config_ok ps u -> x < c -> y < c -> (0 < time rs u x)%Qc ->
  intensity ps soc u x y q -> (Qcabs (q - rate rs u x y) = Qcabs (1 - rate rs u x y) / (Qc_of_Z (Z.of_nat n) * time rs u x + 1))%Qc.
Proof.
  intros Hn HL H Hu Hx Hy HT Hq. pose proof (copies_legal vars cards n rs Hn HL) as HL'.
  apply (entry_is vars cards prior es v c ni pis ps _ soc u x y q HL' H Hu Hx Hy) in Hq. rewrite net_copies, spent_copies in Hq. rewrite Hq.
  assert (P : (0 < Qc_of_Z (Z.of_nat n))%Qc) by (apply Qc_of_Z_pos; lia).
  assert (PT : (0 < Qc_of_Z (Z.of_nat n) * time rs u x)%Qc) by (rewrite <- (Qcmult_0_l (time rs u x)); apply Qcmult_lt_compat_r; assumption).
  exact (bias_error_eq _ _ (net rs u x y) P HT).
Qed.
Theorem C85_converges rs u x y eps : legal rs -> config_ok ps u -> x < c -> y < c -> (0 < time rs u x)%Qc -> (0 < eps)%Qc ->
  exists N, forall n soc q, 0 < n -> N <= n -> learned (copies n rs) soc -> intensity ps soc u x y q -> (Qcabs (q - rate rs u x y) < eps)%Qc.
Proof.
  intros HL Hu Hx Hy HT He. destruct (converges (Qcabs (1 - rate rs u x y)) (time rs u x) eps HT He) as [N HN]. exists N.
  intros n soc q Hn Hle H Hq. rewrite (C85_copies n rs soc u x y q Hn HL H Hu Hx Hy HT Hq).
  assert (P : (0 <= Qc_of_Z (Z.of_nat n) * time rs u x)%Qc) by (rewrite <- (Qcmult_0_l (time rs u x)); apply Qcmult_le_compat_r; [apply Qc_of_Z_nonneg; lia|apply Qclt_le_weak, HT]).
  apply div_lt; [apply Qc_plus1_pos, P|]. apply (Qcle_lt_trans _ _ _ (HN n Hle)). apply Qclt_minus_iff.
  replace (eps * (Qc_of_Z (Z.of_nat n) * time rs u x + 1) + - (eps * (Qc_of_Z (Z.of_nat n) * time rs u x)))%Qc with eps by ring. exact He.
Qed.
(** a state that was never visited under a parent configuration gets the intensity 1 for everything, also on the diagonal *)
Theorem C85_never_seen rs soc u x y q : legal rs -> learned rs soc -> config_ok ps u -> x < c -> y < c ->
  time rs u x = 0%Qc -> net rs u x y = 0%Z -> intensity ps soc u x y q -> q = 1%Qc.
Proof. intros HL H Hu Hx Hy HT HN Hq. apply (entry_is vars cards prior es v c ni pis ps rs soc u x y q HL H Hu Hx Hy) in Hq. rewrite Hq, HT, HN. reflexivity. Qed.
(** signs: an intensity of a change is positive; that of staying is positive if the state was never left, zero if it was left
    once, and negative otherwise *)
Theorem C85_signs rs soc u x y q : legal rs -> Forall clock_ok rs -> learned rs soc -> config_ok ps u -> x < c -> y < c -> intensity ps soc u x y q ->
  (x <> y -> (0 < q)%Qc) /\ (x = y -> ((0 < q)%Qc <-> net rs u x x = 0%Z) /\ (q = 0%Qc <-> net rs u x x = (-1)%Z)).
Proof.
  intros HL HC H Hu Hx Hy Hq. apply (entry_is vars cards prior es v c ni pis ps rs soc u x y q HL H Hu Hx Hy) in Hq.
  pose proof (spent_nonneg ni pis rs u x HC) as HT. apply Qc_plus1_pos in HT. pose proof (net_sign c ni pis rs u x y) as [S1 S2]. split.
  - intros N. rewrite Hq. apply Qcdiv_pos; [|exact HT]. apply Qc_plus1_pos, Qc_of_Z_nonneg, S1, N.
  - intros <-. specialize (S2 eq_refl). assert (E : (Qc_of_Z (net rs u x x) + 1 = Qc_of_Z (net rs u x x + 1))%Qc) by (rewrite Qc_of_Z_add; reflexivity). rewrite E in Hq.
    assert (Z0 : q = 0%Qc <-> net rs u x x = (-1)%Z).
    { split; intros K.
      - rewrite Hq in K. apply (f_equal (fun a => a * (time rs u x + 1))%Qc) in K. rewrite Qcmult_0_l in K. replace (Qc_of_Z (net rs u x x + 1) / (time rs u x + 1) * (time rs u x + 1))%Qc with (Qc_of_Z (net rs u x x + 1)) in K by (field; apply Qc_pos_neq, HT).
        change 0%Qc with (Qc_of_Z 0) in K. apply Qc_of_Z_inj in K. lia.
      - rewrite Hq, K. change (Qc_of_Z (-1 + 1)) with 0%Qc. field. apply Qc_pos_neq, HT. }
    split; [|exact Z0]. split; intros K; [|rewrite Hq, K; apply Qcdiv_pos; [reflexivity|exact HT]].
    assert (P : (0 < Qc_of_Z (net rs u x x + 1))%Qc).
    { apply (Qcmult_lt_compat_r _ _ _ HT) in K. rewrite Qcmult_0_l, Hq in K. replace (Qc_of_Z (net rs u x x + 1) / (time rs u x + 1) * (time rs u x + 1))%Qc with (Qc_of_Z (net rs u x x + 1)) in K by (field; apply Qc_pos_neq, HT). exact K. }
    change 0%Qc with (Qc_of_Z 0) in P. apply (proj1 (Qc_of_Z_lt 0 (net rs u x x + 1))) in P. lia.
Qed.
(** the intensity of a change is the maximum likelihood estimate from the data plus one imaginary transition of that kind and
    one imaginary unit of time in the state *)
Theorem C85_likelihood rs soc u x y q : legal rs -> Forall clock_ok rs -> learned rs soc -> config_ok ps u -> x < c -> y < c -> x <> y -> intensity ps soc u x y q ->
  forall r, (0 < r)%R -> r <> Qc2R q -> (log_likelihood (IZR (net rs u x y) + 1) (Qc2R (time rs u x) + 1) r < log_likelihood (IZR (net rs u x y) + 1) (Qc2R (time rs u x) + 1) (Qc2R q))%R.
Proof.
  intros HL HC H Hu Hx Hy Nxy Hq r Hr Nr. apply (entry_is vars cards prior es v c ni pis ps rs soc u x y q HL H Hu Hx Hy) in Hq.
  pose proof (spent_nonneg ni pis rs u x HC) as HT. pose proof HT as HT'. apply Qc_plus1_pos in HT. pose proof (proj1 (net_sign c ni pis rs u x y) Nxy) as HN.
  assert (E : Qc2R q = ((IZR (net rs u x y) + 1) / (Qc2R (time rs u x) + 1))%R).
  { rewrite Hq, Qc2R_div by (apply Qc_pos_neq, HT). rewrite !Qc2R_plus, Qc2R_1, ProofIndep.Qc2R_Z. reflexivity. }
  rewrite E in *. apply likelihood_max; [apply IZR_le in HN; lra|apply Qc2R_nonneg in HT'; lra|exact Hr|exact Nr].
Qed.
(** the parameters exist for every legal data set (used with the theorems above) *)
Theorem C85_learned rs : legal rs -> edges_within vars es -> edges_within vars (match prior with None => [] | Some l => l end) ->
  (forall s t, imports_to vars cards prior rs s t -> node_view s (es ++ edges_list s) v c ni pis ps) -> 0 < c -> compat c ps ->
  exists soc, learned rs soc /\ forall u x y, config_ok ps u -> x < c -> y < c -> exists q, intensity ps soc u x y q.
Proof.
  intros HL A1 A2 A3 A4 A5. destruct (learned_exists vars cards prior es v c ni pis ps rs HL A1 A2 A3 A4 A5) as [soc H]. exists soc. split; [exact H|].
  intros u x y Hu Hx Hy. eexists. apply (entry_is vars cards prior es v c ni pis ps rs soc u x y _ HL H Hu Hx Hy). reflexivity.
Qed.
End node.
Print Assumptions C85_weighted_average. Print Assumptions C85_error. Print Assumptions C85_enough_data. Print Assumptions C85_two_data_sets. Print Assumptions C85_copies.
Print Assumptions C85_converges. Print Assumptions C85_never_seen. Print Assumptions C85_signs. Print Assumptions C85_likelihood. Print Assumptions C85_learned.

(** the data of C16, X with parent Y: in the configuration Y = 0 the state X = 0 lasted 1/2 and ended once with X = 1 *)
Example C85_case : legal_input dvars [2;2] [dr1; dr2] /\ Forall clock_ok [dr1; dr2]
  /\ exists soc q, learned dvars [2;2] None [("Y","X")] "X" 2 0 [1] [2] [dr1; dr2] soc /\ config_ok [2] [0] /\ intensity [2] soc [0] 0 1 q
     /\ q = Q2Qc (4#3) /\ time_spent [dr1; dr2] 0 [1] [0] 0 = Q2Qc (1#2) /\ observed_rate [dr1; dr2] 0 [1] 2 [0] 0 1 = Q2Qc 2
     /\ time_spent [dr1; dr2] 0 [1] [1] 0 = 0%Qc /\ net_transitions [dr1; dr2] 0 [1] 2 [1] 0 1 = 0%Z.
Proof.
  pose proof (proj1 legal_case) as HL. split; [exact HL|]. split.
  { repeat constructor; intros ab Hab; cbn in Hab; repeat destruct Hab as [<-|Hab]; try contradiction; cbn; discriminate. }
  assert (H : exists soc, learned dvars [2;2] None [("Y","X")] "X" 2 0 [1] [2] [dr1; dr2] soc).
  { apply learned_exists; [exact HL| | | |lia|].
    - intros e [<-|[]]. cbn. tauto.
    - intros e [].
    - intros s t Hi. apply (imports_det dvars [2;2] None _ s t HL) in Hi as [-> _]. split; [reflexivity|]. split; [reflexivity|]. split; repeat constructor.
    - intros p Hp _. cbn in Hp. intuition. }
  destruct H as [soc H]. exists soc, (Q2Qc (4#3)). split; [exact H|]. assert (Hu : config_ok [2] [0]) by (constructor; [lia|constructor]). split; [exact Hu|].
  split; [apply (entry_is dvars [2;2] None [("Y","X")] "X" 2 0 [1] [2] _ soc [0] 0 1 _ HL H Hu); [lia|lia|]; vm_compute; reflexivity|].
  split; [reflexivity|]. split; [vm_compute; reflexivity|]. split; [vm_compute; reflexivity|]. split; vm_compute; reflexivity.
Qed.
