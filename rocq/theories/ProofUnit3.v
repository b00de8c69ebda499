(** The unit of time: the estimated intensities. *)
From Verif Require Import Base Lib ModelStructure ModelGraph ModelCims ModelData ModelParams
  SpecStructure SpecGraph SpecComb SpecParams SpecData SpecInvariance SpecFloating
  ProofGraph ProofComb ProofParams ProofParams2 ProofParams3 ProofInvariance ProofConserve.
Open Scope nat_scope.

Lemma Qcsum_nonneg l : Forall (fun q => 0 <= q)%Qc l -> (0 <= Qcsum l)%Qc.
Proof.
  induction 1 as [|q l H F IH]; [discriminate|]. rewrite Qcsum_cons. replace 0%Qc with (0 + 0)%Qc by ring. apply Qcplus_le_compat; assumption.
Qed.
Lemma raw_dwell_nonneg rs cols vals : Forall clock_ok rs -> (0 <= raw_dwell rs cols vals)%Qc.
Proof.
  intros H. unfold raw_dwell. apply Qcsum_nonneg, Forall_map, Forall_forall. intros r Hr. apply Qcsum_nonneg, Forall_map, Forall_forall.
  intros ab Hab. apply filter_In in Hab as [Hab _]. rewrite Forall_forall in H. specialize (H r Hr ab Hab). unfold Qcminus.
  apply Qcle_minus_iff in H. exact H.
Qed.
Lemma raw_jumps_nonneg rs ni y cols vals : (0 <= raw_jumps rs ni y cols vals)%Z.
Proof. unfold raw_jumps. induction rs as [|r rs IH]; [cbn; lia|]. cbn [map]. rewrite Zsum_cons. lia. Qed.

Lemma raw_entry rs ni pis c u x y : x < c -> y < c -> x <> y ->
  exists row, nth_error (c_cim (raw_cim rs ni pis c u)) x = Some row
   /\ nth_error row y = Some ((Qc_of_Z (raw_jumps rs ni y (ni :: pis) (x :: u)) + 1) / (raw_dwell rs (ni :: pis) (x :: u) + 1))%Qc.
Proof.
  intros Hx Hy Hn. unfold raw_cim.
  edestruct (cim_entry (map (fun x => raw_dwell rs (ni :: pis) (x :: u)) (seq 0 c)) (map (fun x => map (fun x' => if x' =? x
       then Zsum (map (fun y => if y =? x then 0%Z else raw_jumps rs ni y (ni :: pis) (x :: u)) (seq 0 c)) else raw_jumps rs ni x' (ni :: pis) (x :: u)) (seq 0 c)) (seq 0 c)) x y) as [row [R1 R2]].
  - rewrite map_nth_error_iff, nth_seq_lt by exact Hx. reflexivity.
  - eexists. split; [rewrite map_nth_error_iff, nth_seq_lt by exact Hx; reflexivity|]. rewrite map_nth_error_iff, nth_seq_lt by exact Hy. reflexivity.
  - exists row. split; [exact R1|]. rewrite R2. destruct (Nat.eqb_spec x y); [contradiction|]. destruct (Nat.eqb_spec y x); [congruence|]. reflexivity.
Qed.

Lemma rate_unit (q m T : Qc) : (0 < q)%Qc -> (0 <= m)%Qc -> (0 <= T)%Qc -> (q * ((m + 1) / (q * T + 1)) = (m + 1) / (T + 1))%Qc -> q = 1%Qc.
Proof.
  intros Hq Hm HT H. assert (N1 : (T + 1 <> 0)%Qc) by (apply Qc_pos_neq, Qc_plus1_pos, HT).
  assert (N2 : (q * T + 1 <> 0)%Qc). { apply Qc_pos_neq, Qc_plus1_pos. rewrite <- (Qcmult_0_l T). apply Qcmult_le_compat_r; [apply Qclt_le_weak, Hq|exact HT]. }
  assert (N3 : (m + 1 <> 0)%Qc) by (apply Qc_pos_neq, Qc_plus1_pos, Hm).
  apply (f_equal (fun z => z * ((T + 1) * (q * T + 1)) / (m + 1))%Qc) in H.
  assert (E : (q * (T + 1) = q * T + 1)%Qc).
  { transitivity (q * ((m + 1) / (q * T + 1)) * ((T + 1) * (q * T + 1)) / (m + 1))%Qc; [field; auto|]. rewrite H. field. auto. }
  assert (E2 : (q * (T + 1) - q * T = q * T + 1 - q * T)%Qc) by (rewrite E; reflexivity).
  transitivity (q * (T + 1) - q * T)%Qc; [ring|]. rewrite E2. ring.
Qed.
