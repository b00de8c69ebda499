(** C89: the ideal verdict of a test is independence in the data. *)
From Coq Require Import Reals Lra.
From Verif Require Import Base Lib LibQc ModelStructure ModelGraph ModelCims ModelData ModelParams ModelCache ModelCtpc ModelFamScore ModelIndep
  SpecStructure SpecGraph SpecComb SpecParams SpecData SpecCtpc SpecFamScore SpecCoding SpecInvariance SpecBias SpecIndep SpecEnough SpecEnoughCb SpecFloating
  ProofStructure ProofGraph ProofComb ProofParams ProofParams3 ProofCtpc ProofCtpc4 ProofFamScore ProofFamScore2 ProofCoding ProofCoding2 ProofInvariance ProofUnit ProofUnit3 ProofIndep ProofIndep2 ProofBias
  ProofFew ProofEnough ProofEnough2 ProofEnough3 ProofEnough4 ProofEnoughCb.
Close Scope R_scope. Open Scope nat_scope.

Section ideal.
Variables (vars : list label) (cards : list nat) (k : nat) (rs : list raw) (v p : label) (K : list label).
Hypothesis HL : legal_input vars cards rs.
Hypothesis HE : equal_cards cards k.
Hypothesis Hk : 2 <= k.
Hypothesis HC : Forall clock_strict rs.
Hypothesis Hv : In v vars.
Hypothesis Hp : In p vars.
Hypothesis HpK : ~ In p K.
Hypothesis HK : incl K vars.
Notation s := (struct_of vars cards None).
Notation ni := (idx_of s v).
Notation us := (le_enum (map (fun _ => k) (parents_in s K))).
Notation T1 u x := (Tm rs ni (cols_of vars cards None K) u x).
Notation M1 u x := (Mm rs ni (cols_of vars cards None K) u x).
Notation Td u x d := (Tm rs ni (cols_of vars cards None (p :: K)) (ext s p K u d) x).
Notation md u x d := (Mm rs ni (cols_of vars cards None (p :: K)) (ext s p K u d) x).
Notation ideal u d x := (cell_ideal rs k ni (cols_of vars cards None K) u (cols_of vars cards None (p :: K)) (ext s p K u d) x).
Notation m1 u x := (nat_sum (map (M1 u x) (oth k x))).
Notation m2 u x d := (nat_sum (map (md u x d) (oth k x))).
Lemma sum_T u x : In u us -> T1 u x = Rsum (map (fun d => Td u x d) (seq 0 k)).
Proof. intros Hu. symmetry. apply (Td_sum vars cards None k rs v HL HE Hk p K Hp HpK u x Hu). Qed.
Lemma sum_M u x j : In u us -> INR (M1 u x j) = Rsum (map (fun d => INR (md u x d j)) (seq 0 k)).
Proof. intros Hu. rewrite <- (md_sum vars cards None k rs v HL HE Hk p K Hp HpK u x j Hu). unfold pooled. rewrite (nat_sum_R (fun d => md u x d j)). reflexivity. Qed.
Lemma sum_m u x : In u us -> INR (m1 u x) = Rsum (map (fun d => INR (m2 u x d)) (seq 0 k)).
Proof.
  intros Hu. rewrite <- nat_sum_R. rewrite (Rsum_ext (fun j => INR (M1 u x j)) (fun j => Rsum (map (fun d => INR (md u x d j)) (seq 0 k)))) by (intros; apply sum_M, Hu).
  rewrite Rsum_swap. apply Rsum_ext. intros d _. apply nat_sum_R.
Qed.
Lemma Td_pos_nn u x d : (0 <= Td u x d)%R.
Proof. unfold Tm. apply Qc2R_nonneg, raw_dwell_nonneg, strict_ok, HC. Qed.
Lemma indep_ideal u d x : ~ depends vars rs v K p -> In u us -> x < k -> d < k -> ideal u d x.
Proof.
  intros ND Hu Hx Hd. unfold cell_ideal. destruct (Nat.eq_dec (m1 u x) 0) as [Z1|Z1]; [left; exact Z1|]. destruct (Nat.eq_dec (m2 u x d) 0) as [Z2|Z2]; [right; left; exact Z2|]. right; right.
  pose proof (time_pos rs k ni x HC _ _ Z1) as P1. pose proof (time_pos rs k ni x HC _ _ Z2) as P2.
  assert (C : forall j, In j (oth k x) -> (INR (md u x d j) * T1 u x = INR (M1 u x j) * Td u x d)%R).
  { intros j Hj. rewrite (sum_T u x Hu), (sum_M u x j Hu). rewrite <- Rsum_scale, Rmult_comm, <- Rsum_scale. apply Rsum_ext. intros d' _.
    destruct (Req_dec (Td u x d') 0) as [E|E].
    - rewrite E. rewrite (Td_zero vars cards None rs v HC p K u x d' E j). cbn [INR]. ring.
    - rewrite (same_rates vars cards None k rs v HL HE Hv p K Hp HpK HK u x d d' j ND Hu Hx Hj P2) by (pose proof (Td_pos_nn u x d'); lra). ring. }
  assert (C2 : (INR (m2 u x d) * T1 u x = INR (m1 u x) * Td u x d)%R).
  { rewrite <- !nat_sum_R. rewrite !(Rmult_comm (Rsum _)), <- !Rsum_scale. apply Rsum_ext. intros j Hj. rewrite Rmult_comm, (C j Hj). ring. }
  split; [exact C2|]. right. intros j Hj. apply INR_eq. rewrite !mult_INR. specialize (C j Hj). apply Rmult_eq_reg_r with (T1 u x * Td u x d)%R; [|apply Rgt_not_eq, Rmult_gt_0_compat; lra].
  transitivity (INR (m2 u x d) * T1 u x * (INR (M1 u x j) * Td u x d))%R; [ring|]. rewrite <- C, C2. ring.
Qed.
Lemma ideal_indep : (k = 2 \/ forall u x j, In u us -> x < k -> In j (oth k x) -> M1 u x j <> 0) -> (forall u d x, In u us -> d < k -> x < k -> ideal u d x) -> ~ depends vars rs v K p.
Proof.
  intros HS HI [a [b [x [y [[C1 [C2 [C3 C4]]] [Hxy HD]]]]]].
  destruct (to_cell vars cards None k rs v HL HE Hk Hv p K Hp HK a x C3) as [A1 [A2 [A3 [A4 A5]]]]. destruct (to_cell vars cards None k rs v HL HE Hk Hv p K Hp HK b x C4) as [_ [_ [B3 [B4 B5]]]].
  assert (EM : map b (parents_in s K) = map a (parents_in s K)) by (apply map_ext_in; intros l Hl; symmetry; apply C1; unfold parents_in in Hl; apply filter_In in Hl as [_ Hl]; apply lmem_In, Hl).
  rewrite EM in *. set (u := map a (parents_in s K)) in *.
  assert (HpK' : incl (p :: K) vars) by (intros l [<-|Hl]; [exact Hp|apply HK, Hl]).
  assert (Hy : y < k).
  { destruct (Nat.lt_ge_cases y k) as [|G]; [assumption|]. exfalso. apply HD. unfold rate_given. rewrite !(changes_alt vars cards None k rs v HL HE Hv) by exact HpK'. rewrite !(jumps_big vars cards None k rs v HL HE Hk Hv) by exact G. reflexivity || (unfold Qcdiv; change (Qc_of_Z 0) with 0%Qc; ring). }
  assert (Oy : In y (oth k x)) by (apply oth_In; split; [exact Hy|congruence]).
  apply HD. unfold rate_given. rewrite A5, B5. apply rate_cross; [exact C3|exact C4|]. rewrite A4, B4, <- !INR_IZR_INZ. clear HD A5 B5.
  apply Qc2R_pos in C3, C4. rewrite A4 in C3. rewrite B4 in C4. clear A4 B4. set (d := a p) in *. set (d' := b p) in *. clearbody d d' u. clear a b C1 C2 EM.
  destruct (Nat.eq_dec (m1 u x) 0) as [Z1|Z1].
  { assert (Z : INR (M1 u x y) = 0%R) by (rewrite (nat_sum_zero _ _ Z1 y Oy); reflexivity). rewrite (sum_M u x y A1) in Z.
    apply Rsum_zero in Z; [|apply Forall_map, Forall_forall; intros; apply pos_INR]. rewrite Forall_map, Forall_forall in Z. rewrite !Z by (apply in_seq; lia). ring. }
  pose proof (time_pos rs k ni x HC _ _ Z1) as P1.
  assert (S0 : forall e, e < k -> m2 u x e = 0 -> Td u x e = 0%R).
  { assert (Z : Rsum (map (fun e => INR (m1 u x) * Td u x e - INR (m2 u x e) * T1 u x)%R (seq 0 k)) = 0%R).
    { rewrite Rsum_minus, Rsum_scale, <- (sum_T u x A1). rewrite (Rsum_ext (fun e => (INR (m2 u x e) * T1 u x)%R) (fun e => (T1 u x * INR (m2 u x e))%R)) by (intros; ring). rewrite Rsum_scale, <- (sum_m u x A1). ring. }
    apply Rsum_zero in Z.
    - rewrite Forall_map, Forall_forall in Z. intros e He Ee. specialize (Z e ltac:(apply in_seq; lia)). cbn beta in Z. rewrite Ee in Z. cbn [INR] in Z.
      assert (0 < INR (m1 u x))%R by (apply lt_0_INR; lia). pose proof (Td_pos_nn u x e). nra.
    - apply Forall_map, Forall_forall. intros e He. apply in_seq in He. destruct (HI u e x A1 ltac:(lia) A2) as [I|[I|[I _]]]; [contradiction| |lra].
      rewrite I. cbn [INR]. pose proof (pos_INR (m1 u x)). pose proof (Td_pos_nn u x e). nra. }
  assert (G : forall e, e < k -> (0 < Td u x e)%R -> (INR (md u x e y) * T1 u x = INR (M1 u x y) * Td u x e)%R).
  { intros e He Pe. assert (Z2 : m2 u x e <> 0) by (intros Z; rewrite (S0 e He Z) in Pe; lra).
    destruct (HI u e x A1 He A2) as [I|[I|[I J]]]; [contradiction|contradiction|].
    assert (J' : forall j, In j (oth k x) -> m2 u x e * M1 u x j = m1 u x * md u x e j).
    { destruct J as [[j [J1 [J2 _]]]|J]; [exfalso|exact J]. destruct HS as [-> |HS]; [|exact (HS u x j A1 A2 J1 J2)].
      apply Z1. assert (forall i, In i (oth 2 x) -> i = j) by (intros i Hi; apply oth_In in Hi, J1; lia). clear -J2 H. unfold nat_sum. induction (oth 2 x) as [|i l IH]; [reflexivity|].
      cbn [map fold_right]. rewrite (H i) by (left; reflexivity). rewrite J2. apply IH. intros; apply H; right; assumption. }
    specialize (J' y Oy). apply (f_equal INR) in J'. rewrite !mult_INR in J'.
    apply Rmult_eq_reg_l with (INR (m1 u x)); [|apply not_0_INR; exact Z1].
    transitivity (INR (m1 u x) * INR (md u x e y) * T1 u x)%R; [ring|]. rewrite <- J'. transitivity (INR (m2 u x e) * T1 u x * INR (M1 u x y))%R; [ring|]. rewrite I. ring. }
  pose proof (G d A3 C3) as G1. pose proof (G d' B3 C4) as G2. apply Rmult_eq_reg_r with (T1 u x); [|lra].
  transitivity (INR (md u x d y) * T1 u x * Td u x d')%R; [ring|]. rewrite G1. transitivity (INR (M1 u x y) * Td u x d' * Td u x d)%R; [ring|]. rewrite <- G2. ring.
Qed.
End ideal.
