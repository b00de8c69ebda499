(** C90: the ideal verdict of a test is that no visible difference is made. *)
From Coq Require Import Reals Lra Classical_Prop.
From Verif Require Import Base Lib LibQc ModelStructure ModelGraph ModelCims ModelData ModelParams ModelCache ModelCtpc ModelFamScore ModelIndep
  SpecStructure SpecGraph SpecComb SpecParams SpecData SpecCtpc SpecFamScore SpecCoding SpecInvariance SpecBias SpecIndep SpecEnough SpecEnoughCb SpecVisible SpecFloating
  ProofStructure ProofGraph ProofComb ProofParams ProofParams3 ProofConserve ProofCtpc ProofCtpc4 ProofFamScore ProofFamScore2 ProofCoding ProofCoding2 ProofInvariance ProofUnit ProofUnit3 ProofIndep ProofIndep2 ProofBias
  ProofFew ProofEnough ProofEnough2 ProofEnough3 ProofEnough4 ProofEnoughCb ProofEnoughCb2.
Close Scope R_scope. Open Scope nat_scope.

Lemma Zsum_of_nat {A} (f : A -> nat) l : Zsum (map (fun j => Z.of_nat (f j)) l) = Z.of_nat (nat_sum (map f l)).
Proof. unfold nat_sum. induction l as [|a l IH]; [reflexivity|]. cbn [map fold_right]. rewrite Zsum_cons, IH. lia. Qed.

Section ideal.
Variables (vars : list label) (cards : list nat) (k : nat) (rs : list raw) (v p : label) (K : list label).
Hypothesis HL : legal_input vars cards rs.
Hypothesis HE : equal_cards cards k.
Hypothesis Hk : 2 <= k.
Hypothesis HC : Forall clock_strict rs.
Hypothesis Hv : In v vars.
Hypothesis Hp : In p vars.
Hypothesis HpK : ~ In p K.
Hypothesis HK : incl K vars.
Notation s := (struct_of vars cards None).
Notation ni := (idx_of s v).
Notation us := (le_enum (map (fun _ => k) (parents_in s K))).
Notation T1 u x := (Tm rs ni (cols_of vars cards None K) u x).
Notation M1 u x := (Mm rs ni (cols_of vars cards None K) u x).
Notation Td u x d := (Tm rs ni (cols_of vars cards None (p :: K)) (ext s p K u d) x).
Notation md u x d := (Mm rs ni (cols_of vars cards None (p :: K)) (ext s p K u d) x).
Notation ideal u d x := (cell_ideal rs k ni (cols_of vars cards None K) u (cols_of vars cards None (p :: K)) (ext s p K u d) x).
Notation m1 u x := (nat_sum (map (M1 u x) (oth k x))).
Notation m2 u x d := (nat_sum (map (md u x d) (oth k x))).
Lemma changes_K a x y : changes_given vars rs v K a x y = Z.of_nat (M1 (map a (parents_in s K)) x y).
Proof. rewrite (changes_alt vars cards None k rs v HL HE Hv K a x y HK). unfold Mm. rewrite Z2Nat.id by apply raw_jumps_nonneg. reflexivity. Qed.
Lemma exits_eq Q a x f : (forall y, changes_given vars rs v Q a x y = Z.of_nat (f y)) -> exits_given vars k rs v Q a x = Z.of_nat (nat_sum (map f (oth k x))).
Proof. intros E. unfold exits_given. fold (oth k x). rewrite (map_ext _ _ E). apply Zsum_of_nat. Qed.
Lemma md_le u x d j : In u us -> d < k -> md u x d j <= M1 u x j.
Proof.
  intros Hu Hd. apply INR_le. rewrite (sum_M vars cards k rs v p K HL HE Hk Hp HpK u x j Hu).
  assert (Hin : In d (seq 0 k)) by (apply in_seq; lia). revert Hin. induction (seq 0 k) as [|e l IH]; intros []; unfold Rsum in *; cbn [map fold_right].
  - subst e. assert (0 <= fold_right Rplus 0 (map (fun d0 => INR (md u x d0 j)) l))%R; [|lra]. clear. induction l as [|e l IH]; cbn [map fold_right]; [lra|]. pose proof (pos_INR (md u x e j)). lra.
  - specialize (IH H). pose proof (pos_INR (md u x e j)). lra.
Qed.
(** same leaving rates *)
Lemma same_leave u x d d' : ~ visible vars k rs v K p -> In u us -> x < k -> (0 < Td u x d)%R -> (0 < Td u x d')%R -> (INR (m2 u x d) * Td u x d' = INR (m2 u x d') * Td u x d)%R.
Proof.
  intros ND Hu Hx P P'. destruct (Req_dec (INR (m2 u x d) * Td u x d') (INR (m2 u x d') * Td u x d)) as [E|E]; [exact E|]. exfalso. apply ND.
  destruct (of_cell vars cards None k rs v HL HE Hv p K Hp HpK HK u d x Hu) as [A1 [A2 [A3 A4]]]. destruct (of_cell vars cards None k rs v HL HE Hv p K Hp HpK HK u d' x Hu) as [B1 [B2 [B3 _]]].
  unfold Tm in P, P'. apply pos_R in P, P'.
  exists (with_p s p K u d), (with_p s p K u d'), x. split.
  - split; [apply A4|]. rewrite A3, B3, A1, B1. split; [|split; assumption]. intros ->. apply E. reflexivity.
  - left. unfold leave_rate. rewrite A1, B1, (exits_eq _ _ _ _ A2), (exits_eq _ _ _ _ B2). intros W. apply rate_cross in W; [|assumption|assumption]. rewrite <- !INR_IZR_INZ in W. apply E. exact W.
Qed.
Lemma same_targets u x d d' j : ~ visible vars k rs v K p -> In u us -> x < k -> In j (oth k x) -> (forall i, In i (oth k x) -> M1 u x i <> 0) -> (0 < Td u x d)%R -> (0 < Td u x d')%R ->
  (INR (md u x d j) * Td u x d' = INR (md u x d' j) * Td u x d)%R.
Proof.
  intros ND Hu Hx Hj HA P P'. destruct (Req_dec (INR (md u x d j) * Td u x d') (INR (md u x d' j) * Td u x d)) as [E|E]; [exact E|]. exfalso. apply ND.
  destruct (of_cell vars cards None k rs v HL HE Hv p K Hp HpK HK u d x Hu) as [A1 [A2 [A3 A4]]]. destruct (of_cell vars cards None k rs v HL HE Hv p K Hp HpK HK u d' x Hu) as [B1 [B2 [B3 _]]].
  unfold Tm in P, P'. apply pos_R in P, P'. apply oth_In in Hj as [Hj1 Hj2].
  exists (with_p s p K u d), (with_p s p K u d'), x. split.
  - split; [apply A4|]. rewrite A3, B3, A1, B1. split; [|split; assumption]. intros ->. apply E. reflexivity.
  - right. split.
    + intros y Hy Ny. rewrite changes_K. pose proof (proj1 (us_ok vars cards None k K u) Hu) as [U1 U2]. rewrite (with_sp s p K (en_wf vars cards None rs HL) HpK u d U1).
      specialize (HA y ltac:(apply oth_In; auto)). lia.
    + exists j. split; [congruence|]. unfold rate_given. rewrite A1, B1, A2, B2. intros W. apply rate_cross in W; [|assumption|assumption]. rewrite <- !INR_IZR_INZ in W. apply E. exact W.
Qed.
Lemma invisible_ideal u d x : ~ visible vars k rs v K p -> In u us -> x < k -> d < k -> ideal u d x.
Proof.
  intros ND Hu Hx Hd. unfold cell_ideal. destruct (Nat.eq_dec (m1 u x) 0) as [Z1|Z1]; [left; exact Z1|]. destruct (Nat.eq_dec (m2 u x d) 0) as [Z2|Z2]; [right; left; exact Z2|]. right; right.
  pose proof (time_pos rs k ni x HC _ _ Z1) as P1. pose proof (time_pos rs k ni x HC _ _ Z2) as P2.
  assert (C2 : (INR (m2 u x d) * T1 u x = INR (m1 u x) * Td u x d)%R).
  { rewrite (sum_T vars cards k rs v p K HL HE Hk Hp HpK u x Hu), (sum_m vars cards k rs v p K HL HE Hk Hp HpK u x Hu). rewrite <- Rsum_scale, Rmult_comm, <- Rsum_scale. apply Rsum_ext. intros d' _.
    destruct (Req_dec (Td u x d') 0) as [E|E].
    - rewrite E. assert (Z : m2 u x d' = 0).
      { unfold nat_sum. assert (Q : forall j, md u x d' j = 0) by (intros j; apply (Td_zero vars cards None rs v HC p K u x d' E j)). clear -Q. induction (oth k x) as [|i l IH]; [reflexivity|]. cbn [map fold_right]. rewrite Q, IH. reflexivity. }
      rewrite Z. cbn [INR]. ring.
    - rewrite (same_leave u x d d' ND Hu Hx P2) by (pose proof (Td_pos_nn vars cards rs v p K HC u x d'); lra). ring. }
  split; [exact C2|]. destruct (exists_dec_nat (fun j => M1 u x j =? 0) (oth k x)) as [[j [J1 J2]]|HA].
  - left. exists j. apply Nat.eqb_eq in J2. split; [exact J1|]. split; [exact J2|]. pose proof (md_le u x d j Hu Hd). lia.
  - right. assert (HA' : forall i, In i (oth k x) -> M1 u x i <> 0) by (intros i Hi; specialize (HA i Hi); apply Nat.eqb_neq in HA; exact HA).
    assert (C : forall j, In j (oth k x) -> (INR (md u x d j) * T1 u x = INR (M1 u x j) * Td u x d)%R).
    { intros j Hj. rewrite (sum_T vars cards k rs v p K HL HE Hk Hp HpK u x Hu), (sum_M vars cards k rs v p K HL HE Hk Hp HpK u x j Hu). rewrite <- Rsum_scale, Rmult_comm, <- Rsum_scale. apply Rsum_ext. intros d' _.
      destruct (Req_dec (Td u x d') 0) as [E|E].
      - rewrite E. rewrite (Td_zero vars cards None rs v HC p K u x d' E j). cbn [INR]. ring.
      - rewrite (same_targets u x d d' j ND Hu Hx Hj HA' P2) by (pose proof (Td_pos_nn vars cards rs v p K HC u x d'); lra). ring. }
    intros j Hj. apply INR_eq. rewrite !mult_INR. specialize (C j Hj). apply Rmult_eq_reg_r with (T1 u x * Td u x d)%R; [|apply Rgt_not_eq, Rmult_gt_0_compat; lra].
    transitivity (INR (m2 u x d) * T1 u x * (INR (M1 u x j) * Td u x d))%R; [ring|]. rewrite <- C, C2. ring.
Qed.
Lemma ideal_invisible : (forall u d x, In u us -> d < k -> x < k -> ideal u d x) -> ~ visible vars k rs v K p.
Proof.
  intros HI [a [b [x [[C1 [C2 [C3 C4]]] HD]]]].
  destruct (to_cell vars cards None k rs v HL HE Hk Hv p K Hp HK a x C3) as [A1 [A2 [A3 [A4 A5]]]]. destruct (to_cell vars cards None k rs v HL HE Hk Hv p K Hp HK b x C4) as [_ [_ [B3 [B4 B5]]]].
  assert (EM : map b (parents_in s K) = map a (parents_in s K)) by (apply map_ext_in; intros l Hl; symmetry; apply C1; unfold parents_in in Hl; apply filter_In in Hl as [_ Hl]; apply lmem_In, Hl).
  rewrite EM in *. assert (TA : all_targets vars k rs v K a x -> forall j, In j (oth k x) -> M1 (map a (parents_in s K)) x j <> 0).
  { intros Ht j Hj. apply oth_In in Hj as [J1 J2]. specialize (Ht j J1 J2). rewrite changes_K in Ht. lia. }
  set (u := map a (parents_in s K)) in *.
  assert (HpK' : incl (p :: K) vars) by (intros l [<-|Hl]; [exact Hp|apply HK, Hl]).
  assert (P3 : (0 < Td u x (a p))%R) by (rewrite <- A4; apply Qc2R_pos, C3). assert (P4 : (0 < Td u x (b p))%R) by (rewrite <- B4; apply Qc2R_pos, C4).
  destruct (Nat.eq_dec (m1 u x) 0) as [Z1|Z1].
  { assert (Z0 : forall d j, d < k -> In j (oth k x) -> md u x d j = 0) by (intros d j Hd Hj; pose proof (md_le u x d j A1 Hd); pose proof (nat_sum_zero _ _ Z1 j Hj) as Z; cbn beta in Z; lia).
    assert (Zs : forall d, d < k -> m2 u x d = 0).
    { intros d Hd. specialize (Z0 d). unfold nat_sum. clear -Z0 Hd. induction (oth k x) as [|i l IH]; [reflexivity|]. cbn [map fold_right]. rewrite (Z0 i Hd (or_introl eq_refl)), IH; [reflexivity|]. intros; apply Z0; [assumption|right; assumption]. }
    destruct HD as [HD|[Ht [y [Hxy HD]]]].
    - apply HD. unfold leave_rate. rewrite (exits_eq _ _ _ _ A5), (exits_eq _ _ _ _ B5), !Zs by assumption. unfold Qcdiv. cbn [Z.of_nat]. change (Qc_of_Z 0) with 0%Qc. rewrite !Qcmult_0_l. reflexivity.
    - assert (exists j, In j (oth k x)) as [j Hj]. { destruct (Nat.eq_dec x 0) as [->|]; [exists 1|exists 0]; apply oth_In; lia. } apply (TA Ht j Hj). exact (nat_sum_zero _ _ Z1 j Hj). }
  pose proof (time_pos rs k ni x HC _ _ Z1) as P1.
  assert (S0 : forall e, e < k -> m2 u x e = 0 -> Td u x e = 0%R).
  { assert (Z : Rsum (map (fun e => INR (m1 u x) * Td u x e - INR (m2 u x e) * T1 u x)%R (seq 0 k)) = 0%R).
    { rewrite Rsum_minus, Rsum_scale, <- (sum_T vars cards k rs v p K HL HE Hk Hp HpK u x A1). rewrite (Rsum_ext (fun e => (INR (m2 u x e) * T1 u x)%R) (fun e => (T1 u x * INR (m2 u x e))%R)) by (intros; ring).
      rewrite Rsum_scale, <- (sum_m vars cards k rs v p K HL HE Hk Hp HpK u x A1). ring. }
    apply Rsum_zero in Z.
    - rewrite Forall_map, Forall_forall in Z. intros e He Ee. specialize (Z e ltac:(apply in_seq; lia)). cbn beta in Z. rewrite Ee in Z. cbn [INR] in Z.
      assert (0 < INR (m1 u x))%R by (apply lt_0_INR; lia). pose proof (Td_pos_nn vars cards rs v p K HC u x e). nra.
    - apply Forall_map, Forall_forall. intros e He. apply in_seq in He. destruct (HI u e x A1 ltac:(lia) A2) as [I|[I|[I _]]]; [contradiction| |lra].
      rewrite I. cbn [INR]. pose proof (pos_INR (m1 u x)). pose proof (Td_pos_nn vars cards rs v p K HC u x e). nra. }
  assert (NZ : forall e, e < k -> (0 < Td u x e)%R -> m2 u x e <> 0) by (intros e He Pe Z; rewrite (S0 e He Z) in Pe; lra).
  assert (G0 : forall e, e < k -> (0 < Td u x e)%R -> (INR (m2 u x e) * T1 u x = INR (m1 u x) * Td u x e)%R).
  { intros e He Pe. destruct (HI u e x A1 He A2) as [I|[I|[I J]]]; [contradiction|destruct (NZ e He Pe I)|exact I]. }
  destruct HD as [HD|[Ht [y [Hxy HD]]]]; apply HD.
  - unfold leave_rate. rewrite (exits_eq _ _ _ _ A5), (exits_eq _ _ _ _ B5). apply rate_cross; [exact C3|exact C4|]. rewrite A4, B4, <- !INR_IZR_INZ. apply Rmult_eq_reg_r with (T1 u x); [|lra].
    pose proof (G0 _ A3 P3) as G1. pose proof (G0 _ B3 P4) as G2.
    transitivity (INR (m2 u x (a p)) * T1 u x * Td u x (b p))%R; [ring|]. rewrite G1. transitivity (INR (m1 u x) * Td u x (b p) * Td u x (a p))%R; [ring|]. rewrite <- G2. ring.
  - assert (Hy : y < k).
    { destruct (Nat.lt_ge_cases y k) as [|G]; [assumption|]. exfalso. apply HD. unfold rate_given. rewrite !(changes_alt vars cards None k rs v HL HE Hv) by exact HpK'. rewrite !(jumps_big vars cards None k rs v HL HE Hk Hv) by exact G. unfold Qcdiv; change (Qc_of_Z 0) with 0%Qc; rewrite !Qcmult_0_l; reflexivity. }
    assert (Oy : In y (oth k x)) by (apply oth_In; split; [exact Hy|congruence]).
    assert (G : forall e, e < k -> (0 < Td u x e)%R -> (INR (md u x e y) * T1 u x = INR (M1 u x y) * Td u x e)%R).
    { intros e He Pe. destruct (HI u e x A1 He A2) as [I|[I|[I J]]]; [contradiction|destruct (NZ e He Pe I)|].
      destruct J as [[j [J1 [J2 _]]]|J']; [destruct (TA Ht j J1 J2)|].
      specialize (J' y Oy). apply (f_equal INR) in J'. rewrite !mult_INR in J'.
      apply Rmult_eq_reg_l with (INR (m1 u x)); [|apply not_0_INR; exact Z1].
      transitivity (INR (m1 u x) * INR (md u x e y) * T1 u x)%R; [ring|]. rewrite <- J'. transitivity (INR (m2 u x e) * T1 u x * INR (M1 u x y))%R; [ring|]. rewrite I. ring. }
    unfold rate_given. rewrite A5, B5. apply rate_cross; [exact C3|exact C4|]. rewrite A4, B4, <- !INR_IZR_INZ.
    pose proof (G _ A3 P3) as G1. pose proof (G _ B3 P4) as G2. apply Rmult_eq_reg_r with (T1 u x); [|lra].
    transitivity (INR (md u x (a p) y) * T1 u x * Td u x (b p))%R; [ring|]. rewrite G1. transitivity (INR (M1 u x y) * Td u x (b p) * Td u x (a p))%R; [ring|]. rewrite <- G2. ring.
Qed.
End ideal.
