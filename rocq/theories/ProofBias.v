(** The estimated rates and the observed ones (C85). *)
From Verif Require Import Base Lib ModelStructure ModelGraph ModelCims ModelData ModelParams SpecStructure SpecGraph SpecComb SpecParams SpecData SpecCtpc SpecInvariance SpecFloating SpecBias
  ProofGraph ProofComb ProofParams ProofParams2 ProofParams3 ProofInvariance ProofConserve ProofUnit3.

Close Scope R_scope.
Open Scope nat_scope.
Section entry.
Variables (rs : list raw) (ni : nat) (pis : list nat) (c : nat) (u : list nat).
Notation N := (net_transitions rs ni pis c u).
Notation T := (time_spent rs ni pis u).
Lemma bias_entry x y : x < c -> y < c -> exists row, nth_error (c_cim (raw_cim rs ni pis c u)) x = Some row
   /\ nth_error row y = Some ((Qc_of_Z (N x y) + 1) / (T x + 1))%Qc.
Proof.
  intros Hx Hy. unfold raw_cim.
  edestruct (cim_entry (map (fun x => raw_dwell rs (ni :: pis) (x :: u)) (seq 0 c)) (map (fun x => map (fun x' => if x' =? x
       then Zsum (map (fun y => if y =? x then 0%Z else raw_jumps rs ni y (ni :: pis) (x :: u)) (seq 0 c)) else raw_jumps rs ni x' (ni :: pis) (x :: u)) (seq 0 c)) (seq 0 c)) x y) as [row [R1 R2]].
  - rewrite map_nth_error_iff, nth_seq_lt by exact Hx. reflexivity.
  - eexists. split; [rewrite map_nth_error_iff, nth_seq_lt by exact Hx; reflexivity|]. rewrite map_nth_error_iff, nth_seq_lt by exact Hy. reflexivity.
  - exists row. split; [exact R1|]. rewrite R2. unfold net_transitions, time_spent. destruct (Nat.eqb_spec x y) as [->|Nxy].
    + rewrite Nat.eqb_refl. f_equal. f_equal. rewrite (Qcplus_comm _ 1). unfold Qcminus. f_equal. set (z := Zsum _).
      symmetry. apply Qc_of_Z_opp.
    + destruct (Nat.eqb_spec y x); [congruence|]. reflexivity.
Qed.
End entry.

(** ** arithmetic *)
Open Scope Qc_scope.
Lemma weighted (n T : Qc) : 0 < T -> (n + 1) / (T + 1) = T / (T + 1) * (n / T) + 1 / (T + 1) * 1.
Proof. intros H. assert (T <> 0) by (apply Qc_pos_neq, H). assert (T + 1 <> 0) by (apply Qc_pos_neq, Qc_plus1_pos, Qclt_le_weak, H). field. auto. Qed.
Lemma neg_pos q : q < 0 -> 0 < - q.
Proof. intros H. apply Qclt_minus_iff in H. replace (0 + - q) with (- q) in H by ring. exact H. Qed.
Lemma abs_nonneg q : 0 <= Qcabs q.
Proof. unfold Qcabs. destruct (Qclt_le_dec q 0) as [H|H]; [|exact H]. apply Qclt_le_weak, neg_pos, H. Qed.
Lemma abs_scale k q : 0 < k -> Qcabs (q / k) = Qcabs q / k.
Proof.
  intros Hk. assert (Hi : 0 < / k) by (replace (/ k) with (1 / k) by (field; apply Qc_pos_neq, Hk); apply Qcdiv_pos; [reflexivity|exact Hk]). unfold Qcabs.
  destruct (Qclt_le_dec q 0) as [A|A], (Qclt_le_dec (q / k) 0) as [B|B]; try reflexivity.
  - field. apply Qc_pos_neq, Hk.
  - exfalso. apply (Qcmult_lt_compat_r _ _ (/ k) Hi) in A. replace (0 * / k) with 0 in A by ring. exact (Qclt_not_le _ _ A B).
  - exfalso. apply (Qcmult_le_compat_r _ _ (/ k)) in A; [|apply Qclt_le_weak, Hi]. replace (0 * / k) with 0 in A by ring. exact (Qclt_not_le _ _ B A).
Qed.
Lemma bias_error (n T : Qc) : 0 < T -> Qcabs ((n + 1) / (T + 1) - n / T) = Qcabs (1 - n / T) / (T + 1).
Proof.
  intros H. assert (P : 0 < T + 1) by (apply Qc_plus1_pos, Qclt_le_weak, H). rewrite <- (abs_scale (T + 1) (1 - n / T) P). f_equal.
  field. split; apply Qc_pos_neq; assumption.
Qed.
Lemma div_lt a b e : 0 < b -> a < e * b -> a / b < e.
Proof.
  intros Hb H. assert (Hi : 0 < / b) by (replace (/ b) with (1 / b) by (field; apply Qc_pos_neq, Hb); apply Qcdiv_pos; [reflexivity|exact Hb]).
  apply (Qcmult_lt_compat_r _ _ (/ b) Hi) in H. replace (e * b * / b) with e in H by (field; apply Qc_pos_neq, Hb). exact H.
Qed.
Lemma bias_small (n T e : Qc) : 0 < T -> 0 < e -> Qcabs (1 - n / T) <= e * T -> Qcabs ((n + 1) / (T + 1) - n / T) < e.
Proof.
  intros HT He H. rewrite (bias_error n T HT). apply div_lt; [apply Qc_plus1_pos, Qclt_le_weak, HT|]. apply (Qcle_lt_trans _ _ _ H).
  apply Qclt_minus_iff. replace (e * (T + 1) + - (e * T)) with e by ring. exact He.
Qed.

(** ** copies *)
Lemma dwell_app rs1 rs2 cols vals : raw_dwell (rs1 ++ rs2) cols vals = raw_dwell rs1 cols vals + raw_dwell rs2 cols vals.
Proof. unfold raw_dwell. rewrite map_app, Qcsum_app. reflexivity. Qed.
Lemma jumps_app rs1 rs2 ni y cols vals : (raw_jumps (rs1 ++ rs2) ni y cols vals = raw_jumps rs1 ni y cols vals + raw_jumps rs2 ni y cols vals)%Z.
Proof. unfold raw_jumps. rewrite map_app, Zsum_app. reflexivity. Qed.
Section merge.
Variables (ni : nat) (pis : list nat) (c : nat) (u : list nat).
Lemma net_app rs1 rs2 x y : (net_transitions (rs1 ++ rs2) ni pis c u x y = net_transitions rs1 ni pis c u x y + net_transitions rs2 ni pis c u x y)%Z.
Proof.
  unfold net_transitions. destruct (x =? y)%nat; [|apply jumps_app]. rewrite <- Z.opp_add_distr. f_equal.
  induction (seq 0 c) as [|z l IH]; [reflexivity|]. cbn [map]. rewrite !Zsum_cons, IH. destruct (z =? x)%nat; [lia|]. rewrite jumps_app. lia.
Qed.
Lemma spent_app rs1 rs2 x : time_spent (rs1 ++ rs2) ni pis u x = time_spent rs1 ni pis u x + time_spent rs2 ni pis u x.
Proof. apply dwell_app. Qed.
Lemma net_copies rs n x y : Qc_of_Z (net_transitions (copies n rs) ni pis c u x y) = Qc_of_Z (Z.of_nat n) * Qc_of_Z (net_transitions rs ni pis c u x y).
Proof.
  induction n as [|n IH].
  - replace (net_transitions (copies 0 rs) ni pis c u x y) with 0%Z; [cbn [Z.of_nat]; unfold Qc_of_Z; apply Qc_is_canon; reflexivity|].
    unfold copies, net_transitions. cbn [repeat concat]. destruct (x =? y)%nat; [|reflexivity]. clear.
    replace (Zsum (map (fun z => if (z =? x)%nat then 0%Z else raw_jumps [] ni z (ni :: pis) (x :: u)) (seq 0 c))) with 0%Z; [reflexivity|].
    induction (seq 0 c) as [|z l IH]; [reflexivity|]. cbn [map]. rewrite Zsum_cons, <- IH. destruct (z =? x)%nat; reflexivity.
  - unfold copies in *. cbn [repeat concat]. rewrite net_app, Qc_of_Z_add, IH, Nat2Z.inj_succ. unfold Z.succ. rewrite Qc_of_Z_add. change (Qc_of_Z 1) with 1. ring.
Qed.
Lemma spent_copies rs n x : time_spent (copies n rs) ni pis u x = Qc_of_Z (Z.of_nat n) * time_spent rs ni pis u x.
Proof.
  induction n as [|n IH]; [unfold copies; cbn [repeat concat Z.of_nat]; change (Qc_of_Z 0) with 0; rewrite Qcmult_0_l; reflexivity|].
  unfold copies in *. cbn [repeat concat]. rewrite spent_app, IH, Nat2Z.inj_succ. unfold Z.succ. rewrite Qc_of_Z_add. change (Qc_of_Z 1) with 1. ring.
Qed.
End merge.
Lemma copies_legal vars cards n rs : (0 < n)%nat -> legal_input vars cards rs -> legal_input vars cards (copies n rs).
Proof.
  intros Hn H. induction n as [|n IH]; [lia|]. unfold copies in *. cbn [repeat concat]. destruct n as [|n].
  - cbn [repeat concat]. rewrite app_nil_r. exact H.
  - apply legal_app; [exact H|]. apply IH. lia.
Qed.
Lemma bias_error_eq k T z : 0 < k -> 0 < T ->
  Qcabs ((k * Qc_of_Z z + 1) / (k * T + 1) - Qc_of_Z z / T) = Qcabs (1 - Qc_of_Z z / T) / (k * T + 1).
Proof.
  intros Hk HT. assert (P : 0 < k * T) by (rewrite <- (Qcmult_0_l T); apply Qcmult_lt_compat_r; assumption).
  replace (Qc_of_Z z / T) with (k * Qc_of_Z z / (k * T)) by (field; split; apply Qc_pos_neq; assumption). apply bias_error, P.
Qed.
Lemma archimedean q : exists n : nat, q <= Qc_of_Z (Z.of_nat n).
Proof.
  exists (Z.to_nat (Z.abs (Qnum (this q)))). unfold Qcle, Qc_of_Z. cbn [this Q2Qc]. rewrite Qred_correct. unfold Qle, inject_Z. cbn [Qnum Qden].
  rewrite Z2Nat.id by lia. pose proof (Pos2Z.is_pos (Qden (this q))) as P. nia.
Qed.
Lemma converges (a T eps : Qc) : 0 < T -> 0 < eps -> exists N, forall n, (N <= n)%nat -> a <= eps * (Qc_of_Z (Z.of_nat n) * T).
Proof.
  intros HT He. destruct (archimedean (a / (eps * T))) as [N HN]. exists N. intros n Hn.
  assert (P : 0 < eps * T) by (rewrite <- (Qcmult_0_l T); apply Qcmult_lt_compat_r; assumption).
  assert (HN' : a / (eps * T) <= Qc_of_Z (Z.of_nat n)).
  { apply (Qcle_trans _ _ _ HN). unfold Qcle, Qc_of_Z. cbn [this Q2Qc]. rewrite !Qred_correct. unfold Qle, inject_Z. cbn [Qnum Qden]. lia. }
  apply (Qcmult_le_compat_r _ _ (eps * T)) in HN'; [|apply Qclt_le_weak, P]. replace (a / (eps * T) * (eps * T)) with a in HN' by (field; split; apply Qc_pos_neq; assumption).
  replace (eps * (Qc_of_Z (Z.of_nat n) * T)) with (Qc_of_Z (Z.of_nat n) * (eps * T)) by ring. exact HN'.
Qed.
