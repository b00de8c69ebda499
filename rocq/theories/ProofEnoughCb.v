(** C89: the two tests on one cell, for many copies of the data. *)
From Coq Require Import Reals Lra.
From Verif Require Import Base Lib LibQc ModelStructure ModelGraph ModelCims ModelData ModelParams ModelCache ModelCtpc ModelFamScore ModelIndep
  SpecStructure SpecGraph SpecComb SpecParams SpecData SpecCtpc SpecFamScore SpecCoding SpecInvariance SpecBias SpecIndep SpecEnough SpecEnoughCb SpecFloating
  ProofParams ProofParams3 ProofCtpc4 ProofFamScore ProofFamScore2 ProofCoding ProofCoding2 ProofInvariance ProofUnit ProofUnit3 ProofIndep ProofIndep2 ProofBias ProofEnough ProofEnough2 ProofEnough3.
Close Scope R_scope. Open Scope nat_scope.

Lemma INR_above x : exists n, (INR n > x)%R.
Proof.
  exists (Z.to_nat (up x)). destruct (archimed x) as [A _]. rewrite INR_IZR_INZ. eapply Rge_gt_trans; [|exact A]. apply Rle_ge, IZR_le. lia.
Qed.
(** ** the ratio of the smoothed rates *)
Definition sratio (n m1 m2 : nat) (T1 T2 : R) : R :=
  (((INR (n * m2) - 1) / (INR n * T2 + 1)) / ((INR (n * m1) - 1) / (INR n * T1 + 1)))%R.
Section ratio.
Variables (m1 m2 : nat) (T1 T2 : R).
Hypothesis H1 : 1 <= m1.
Hypothesis H2 : 1 <= m2.
Hypothesis P1 : (0 < T1)%R.
Hypothesis P2 : (0 < T2)%R.
Let Delta := (INR m2 * T1 - INR m1 * T2)%R.
Let D := (INR m2 - T1 - INR m1 + T2)%R.
Lemma sratio_diff n : 2 <= n -> (sratio n m1 m2 T1 T2 - 1 = (INR n * INR n * Delta + INR n * D) / ((INR n * T2 + 1) * (INR n * INR m1 - 1)))%R.
Proof.
  intros Hn. apply le_INR in H1, H2, Hn. cbn in H1, H2, Hn. unfold sratio, Delta, D. rewrite !mult_INR.
  assert (A : (0 < INR n * INR m1 - 1)%R) by nra. assert (B : (0 < INR n * T2 + 1)%R) by nra. assert (C : (0 < INR n * T1 + 1)%R) by nra.
  field. repeat split; lra.
Qed.
Lemma ratio_close : Delta = 0%R -> exists c, forall n, 2 <= n -> (Rabs (sratio n m1 m2 T1 T2 - 1) <= c / INR n)%R.
Proof.
  intros E. exists (2 * Rabs D / T2)%R. intros n Hn. rewrite sratio_diff by exact Hn. rewrite E. apply le_INR in H1, Hn. cbn in H1, Hn.
  assert (A : (INR n / 2 <= INR n * INR m1 - 1)%R) by nra. assert (B : (INR n * T2 <= INR n * T2 + 1)%R) by lra. assert (B0 : (0 < INR n * T2)%R) by nra.
  replace (INR n * INR n * 0 + INR n * D)%R with (INR n * D)%R by ring.
  assert (Q : (0 < (INR n * T2 + 1) * (INR n * INR m1 - 1))%R) by (apply Rmult_lt_0_compat; lra).
  unfold Rdiv at 1. rewrite Rabs_mult, (Rabs_right (/ _)) by (apply Rle_ge, Rlt_le, Rinv_0_lt_compat, Q). rewrite Rabs_mult, (Rabs_right (INR n)) by lra.
  apply Rle_trans with (INR n * Rabs D * / (INR n * T2 * (INR n / 2)))%R.
  - apply Rmult_le_compat_l; [pose proof (Rabs_pos D); nra|]. apply Rinv_le_contravar; [apply Rmult_lt_0_compat; lra|]. apply Rmult_le_compat; lra.
  - right. field. split; lra.
Qed.
Lemma ratio_far : Delta <> 0%R -> exists eps n0, (0 < eps)%R /\ forall n, n0 <= n -> (eps <= Rabs (sratio n m1 m2 T1 T2 - 1))%R.
Proof.
  intros E. pose proof (Rabs_pos_lt _ E) as PD. destruct (INR_above (2 * Rabs D / Rabs Delta)) as [n1 N1].
  exists (Rabs Delta / (2 * ((T2 + 1) * INR m1)))%R, (max 2 n1). pose proof (le_INR _ _ H1) as H1'. cbn in H1'. split; [apply Rdiv_lt_0_compat; [exact PD|nra]|].
  intros n Hn. rewrite sratio_diff by lia. assert (Hn2 : 2 <= n) by lia. assert (Hn1 : n1 <= n) by lia. apply le_INR in Hn1, Hn2. cbn in Hn2.
  assert (W : (2 * Rabs D <= INR n * Rabs Delta)%R).
  { apply Rmult_gt_compat_r with (r := Rabs Delta) in N1; [|exact PD]. unfold Rdiv in N1. rewrite Rmult_assoc, Rinv_l, Rmult_1_r in N1 by lra. nra. }
  assert (A : (INR n * INR m1 - 1 <= INR n * INR m1)%R) by lra. assert (A0 : (0 < INR n * INR m1 - 1)%R) by nra. assert (B0 : (0 < INR n * T2 + 1)%R) by nra.
  assert (B : (INR n * T2 + 1 <= INR n * (T2 + 1))%R) by nra.
  assert (Q : (0 < (INR n * T2 + 1) * (INR n * INR m1 - 1))%R) by (apply Rmult_lt_0_compat; lra).
  unfold Rdiv at 2. rewrite Rabs_mult, (Rabs_right (/ _)) by (apply Rle_ge, Rlt_le, Rinv_0_lt_compat, Q).
  assert (NU : (INR n * INR n * Rabs Delta / 2 <= Rabs (INR n * INR n * Delta + INR n * D))%R).
  { apply Rle_trans with (Rabs (INR n * INR n * Delta) - Rabs (INR n * D))%R.
    - rewrite !Rabs_mult, (Rabs_right (INR n)) by lra. nra.
    - pose proof (Rabs_triang_inv (INR n * INR n * Delta) (- (INR n * D))) as X. rewrite Rabs_Ropp in X. replace (INR n * INR n * Delta - - (INR n * D))%R with (INR n * INR n * Delta + INR n * D)%R in X by ring. exact X. }
  apply Rle_trans with (INR n * INR n * Rabs Delta / 2 * / (INR n * (T2 + 1) * (INR n * INR m1)))%R.
  - right. field. repeat split; lra.
  - apply Rmult_le_compat; [nra|left; apply Rinv_0_lt_compat; nra|exact NU|]. apply Rinv_le_contravar; [exact Q|]. apply Rmult_le_compat; lra.
Qed.
End ratio.

(** ** Pearson's statistic grows with the data *)
Lemma Rsum_scale_l (c : R) l : Rsum (map (Rmult c) l) = (c * Rsum l)%R.
Proof. induction l as [|a l IH]; [cbn; unfold Rsum; cbn; ring|]. cbn [map]. unfold Rsum in *. cbn [fold_right]. rewrite IH. ring. Qed.
Lemma pearson_scale c a b : (0 < c)%R -> pearson (map (Rmult c) a) (map (Rmult c) b) = (c * pearson a b)%R.
Proof.
  intros Hc. unfold pearson. rewrite !Rsum_scale_l. set (sa := Rsum a). set (sb := Rsum b).
  assert (E : forall l : list (R * R), Rsum (map (fun p => (pearson_cell (c * sa + c * sb) (c * sa) (fst p) (fst p + snd p) + pearson_cell (c * sa + c * sb) (c * sb) (snd p) (fst p + snd p))%R) (map (fun p => (c * fst p, c * snd p)%R) l))
     = (c * Rsum (map (fun p => (pearson_cell (sa + sb) sa (fst p) (fst p + snd p) + pearson_cell (sa + sb) sb (snd p) (fst p + snd p))%R) l))%R).
  { induction l as [|[x y] l IH]; [unfold Rsum; cbn; ring|]. cbn [map fst snd]. unfold Rsum in *. cbn [fold_right]. rewrite IH.
    assert (G : forall t r o w, pearson_cell (c * t) (c * r) (c * o) (c * w) = (c * pearson_cell t r o w)%R).
    { intros t r o w. unfold pearson_cell. assert (I : (c * / c = 1)%R) by (apply Rinv_r; lra).
      assert (Ex : (c * r * (c * w) / (c * t) = c * (r * w / t))%R) by (unfold Rdiv; rewrite Rinv_mult; transitivity (c * / c * (c * (r * w * / t)))%R; [ring|rewrite I; ring]). rewrite Ex.
      set (ee := (r * w / t)%R). unfold Rdiv. rewrite Rinv_mult. transitivity (c * / c * (c * ((o - ee) ^ 2 * / ee)))%R; [ring|rewrite I; ring]. }
    rewrite <- !Rmult_plus_distr_l, !G. ring. }
  rewrite <- E. f_equal. f_equal. clear. revert b. induction a as [|x a IH]; intros [|y b]; cbn [map combine]; try reflexivity. f_equal. apply IH.
Qed.
Lemma pearson_eventually a b q : (0 < pearson a b)%R -> exists n0, 1 <= n0 /\ forall n, n0 <= n -> (q < pearson (map (Rmult (INR n)) a) (map (Rmult (INR n)) b))%R.
Proof.
  intros H. destruct (INR_above (q / pearson a b)) as [n0 N0]. exists (max 1 n0). split; [lia|]. intros n Hn. assert (n0 <= n /\ 1 <= n) as [A B] by lia. apply le_INR in A, B. cbn in B.
  rewrite pearson_scale by lra. apply Rmult_gt_compat_r with (r := pearson a b) in N0; [|exact H]. unfold Rdiv in N0. rewrite Rmult_assoc, Rinv_l, Rmult_1_r in N0 by lra. nra.
Qed.

(** ** one cell *)
Lemma raw_jumps_of k ds ni cols u x j : x < k -> j < k -> jumps_of (raw_cim ds ni cols k u) x j = m_at (raw_cim ds ni cols k u) x j.
Proof.
  intros Hx Hj. unfold m_at. pose proof (raw_trans_at ni k cols ds u x j Hx Hj) as E. rewrite E. unfold entry_at in E. unfold jumps_of.
  destruct (nth_error (c_trans (raw_cim ds ni cols k u)) x) as [row|] eqn:ER; [|discriminate]. rewrite (nth_error_nth _ _ _ ER). apply nth_error_nth, E.
Qed.
Lemma exits_raw k ds ni cols u x : x < k -> exits (raw_cim ds ni cols k u) x = Z.of_nat (nat_sum (map (Mm ds ni cols u x) (oth k x))).
Proof. intros Hx. unfold exits. rewrite raw_jumps_of by exact Hx. apply raw_diag, Hx. Qed.
Lemma time_raw k ds ni cols u x : x < k -> time_in (raw_cim ds ni cols k u) x = Tm ds ni cols u x.
Proof. intros Hx. unfold time_in, Tm. f_equal. apply nth_error_nth. unfold raw_cim. cbn [compute_cim_coefficients new_cim c_times]. rewrite map_nth_error_iff, nth_seq_lt by exact Hx. reflexivity. Qed.
Lemma row_raw k ds ni cols u x : x < k -> jump_row k (raw_cim ds ni cols k u) x = map (fun j => INR (Mm ds ni cols u x j)) (oth k x).
Proof.
  intros Hx. unfold jump_row. change (other_states k x) with (oth k x). apply map_ext_in. intros j Hj. apply oth_In in Hj as [Hj N]. rewrite raw_jumps_of, raw_off by assumption. symmetry. apply INR_IZR_INZ.
Qed.
Lemma nat_sum_mul {A} n (f : A -> nat) l : nat_sum (map (fun a => n * f a) l) = n * nat_sum (map f l).
Proof. unfold nat_sum. induction l as [|a l IH]; [cbn; lia|]. cbn [map fold_right]. rewrite IH. lia. Qed.
Lemma nat_sum_R {A} (f : A -> nat) l : Rsum (map (fun a => INR (f a)) l) = INR (nat_sum (map f l)).
Proof. unfold nat_sum, Rsum. induction l as [|a l IH]; [reflexivity|]. cbn [map fold_right]. rewrite IH, plus_INR. reflexivity. Qed.
Lemma nat_sum_zero {A} (f : A -> nat) l : nat_sum (map f l) = 0 -> forall a, In a l -> f a = 0.
Proof. unfold nat_sum. induction l as [|b l IH]; cbn [map fold_right]; intros H a Ha; [destruct Ha|]. destruct Ha as [<-|Ha]; [lia|apply IH; [lia|exact Ha]]. Qed.
Lemma nat_sum_pos {A} (f : A -> nat) l : nat_sum (map f l) <> 0 -> exists a, In a l /\ f a <> 0.
Proof. unfold nat_sum. induction l as [|b l IH]; cbn [map fold_right]; intros H; [lia|]. destruct (Nat.eq_dec (f b) 0) as [E|E]; [destruct IH as [a [A1 A2]]; [lia|exists a; split; [right|]; assumption]|exists b; split; [left; reflexivity|exact E]]. Qed.
Lemma exists_dec_nat (f : nat -> bool) l : (exists j, In j l /\ f j = true) \/ (forall j, In j l -> f j = false).
Proof. induction l as [|a l IH]; [right; intros j []|]. destruct (f a) eqn:E; [left; exists a; split; [left; reflexivity|exact E]|]. destruct IH as [[j [A B]]|IH]; [left; exists j; split; [right|]; assumption|right]. intros j [<-|Hj]; auto. Qed.

Section cell.
Variables (P : test_params) (rs : list raw) (k ni : nat) (cols1 u1 cols2 u2 : list nat) (x : nat).
Hypothesis HQ : quantiles_ok P.
Hypothesis HS : quantiles_settle P.
Hypothesis HC : Forall clock_strict rs.
Hypothesis Hk : 2 <= k.
Hypothesis Hx : x < k.
Notation M1 := (Mm rs ni cols1 u1 x).
Notation M2 := (Mm rs ni cols2 u2 x).
Notation m1 := (nat_sum (map M1 (oth k x))).
Notation m2 := (nat_sum (map M2 (oth k x))).
Notation T1 := (Tm rs ni cols1 u1 x).
Notation T2 := (Tm rs ni cols2 u2 x).
Definition cell_ideal : Prop := m1 = 0 \/ m2 = 0
  \/ (INR m2 * T1 = INR m1 * T2)%R /\ ((exists j, In j (oth k x) /\ M1 j = 0 /\ M2 j = 0) \/ forall j, In j (oth k x) -> m2 * M1 j = m1 * M2 j).
Notation c1 n := (raw_cim (copies n rs) ni cols1 k u1).
Notation c2 n := (raw_cim (copies n rs) ni cols2 k u2).
Lemma exits_n n cols u : exits (raw_cim (copies n rs) ni cols k u) x = Z.of_nat (n * nat_sum (map (Mm rs ni cols u x) (oth k x))).
Proof. rewrite exits_raw by exact Hx. f_equal. rewrite <- nat_sum_mul. f_equal. apply map_ext. intros j. apply Mm_copies. Qed.
Lemma row_n n cols u : jump_row k (raw_cim (copies n rs) ni cols k u) x = map (Rmult (INR n)) (map (fun j => INR (Mm rs ni cols u x j)) (oth k x)).
Proof. rewrite row_raw by exact Hx. rewrite map_map. apply map_ext. intros j. rewrite Mm_copies. apply mult_INR. Qed.
Lemma time_pos cols u : nat_sum (map (Mm rs ni cols u x) (oth k x)) <> 0 -> (0 < Tm rs ni cols u x)%R.
Proof.
  intros H. apply nat_sum_pos in H as [j [_ Hj]]. unfold Tm. apply Qc2R_pos. pose proof (raw_dwell_nonneg rs (ni :: cols) (x :: u) (strict_ok rs HC)) as Q.
  destruct (Qc_dec 0 (raw_dwell rs (ni :: cols) (x :: u))) as [[L|L]|E]; [exact L|exfalso; exact (Qclt_not_le _ _ L Q)|exfalso]. apply Hj. unfold Mm. rewrite (dwell_jumps rs ni j _ _ HC (eq_sym E)). reflexivity.
Qed.
Lemma ratio_n n : smoothed_ratio (c1 n) (c2 n) x = sratio n m1 m2 T1 T2.
Proof. unfold smoothed_ratio, sratio. rewrite !exits_n, !time_raw, !Tm_copies, <- !INR_IZR_INZ by exact Hx. reflexivity. Qed.
Lemma unseen_n n : 1 <= n -> (unseen_cell k (c1 n) (c2 n) x <-> exists j, In j (oth k x) /\ M1 j = 0 /\ M2 j = 0).
Proof.
  intros Hn. unfold unseen_cell. split.
  - intros [j [J1 [J2 [J3 J4]]]]. exists j. split; [apply oth_In; auto|]. rewrite raw_jumps_of, raw_off, Mm_copies in J3, J4 by assumption. split; nia.
  - intros [j [J1 [J2 J3]]]. apply oth_In in J1 as [J0 J1]. exists j. rewrite !raw_jumps_of, !raw_off, !Mm_copies, J2, J3 by assumption. repeat split; auto; lia.
Qed.
Lemma cell_limit : exists n0, 2 <= n0 /\ forall n, n0 <= n -> (state_accepts P k (c1 n) (c2 n) x <-> cell_ideal).
Proof.
  destruct (Nat.eq_dec m1 0) as [Z1|Z1].
  { exists 2. split; [lia|]. intros n Hn. split; intros _; [left; exact Z1|]. left. rewrite exits_n, Z1. lia. }
  destruct (Nat.eq_dec m2 0) as [Z2|Z2].
  { exists 2. split; [lia|]. intros n Hn. split; intros _; [right; left; exact Z2|]. right; left. rewrite exits_n, Z2. lia. }
  pose proof (time_pos _ _ Z1) as P1. pose proof (time_pos _ _ Z2) as P2.
  destruct (Req_dec (INR m2 * T1 - INR m1 * T2) 0) as [E|E].
  - destruct (ratio_close m1 m2 T1 T2 ltac:(lia) ltac:(lia) P1 P2 E) as [c Hc]. destruct (HS m1 m2 1%R c ltac:(lia) ltac:(lia) Rlt_0_1) as [N HN].
    assert (B : forall n, max 2 N <= n -> (2 <= exits (c1 n) x /\ 2 <= exits (c2 n) x
           /\ between (f_ppf P (exp_alpha P / 2)%R (exits (c1 n) x) (exits (c2 n) x)) (smoothed_ratio (c1 n) (c2 n) x) (f_ppf P (1 - exp_alpha P / 2)%R (exits (c1 n) x) (exits (c2 n) x)))%Z).
    { intros n Hn. rewrite !exits_n, ratio_n. split; [nia|]. split; [nia|]. destruct (HN n ltac:(lia)) as [lo [hi [F1 [F2 [F3 F4]]]]]. rewrite F1, F2. specialize (Hc n ltac:(lia)).
      pose proof (Rle_abs (sratio n m1 m2 T1 T2 - 1)) as Y1; pose proof (Rle_abs (- (sratio n m1 m2 T1 T2 - 1))) as Y2; rewrite Rabs_Ropp in Y2.
      split; intros z Hz; injection Hz as <-; lra. }
    destruct (exists_dec_nat (fun j => (M1 j =? 0) && (M2 j =? 0)) (oth k x)) as [[j [J1 J2]]|U].
    + apply andb_prop in J2 as [J2 J3]. apply Nat.eqb_eq in J2, J3. exists (max 2 N). split; [lia|]. intros n Hn. split; intros _.
      * right; right. split; [lra|left; exists j; auto].
      * right; right. split; [right; apply B, Hn|]. left. apply unseen_n; [lia|]. exists j. auto.
    + assert (NU : ~ exists j, In j (oth k x) /\ M1 j = 0 /\ M2 j = 0).
      { intros [j [J1 [J2 J3]]]. specialize (U j J1). rewrite J2, J3 in U. discriminate. }
      set (a := map (fun j => INR (M1 j)) (oth k x)). set (b := map (fun j => INR (M2 j)) (oth k x)).
      assert (Sa : Rsum a = INR m1) by apply nat_sum_R. assert (Sb : Rsum b = INR m2) by apply nat_sum_R.
      assert (Pa : (0 < Rsum a)%R) by (rewrite Sa; apply lt_0_INR; lia). assert (Pb : (0 < Rsum b)%R) by (rewrite Sb; apply lt_0_INR; lia).
      assert (EC : combine a b = map (fun j => (INR (M1 j), INR (M2 j))) (oth k x)) by (unfold a, b; apply combine_map_same).
      assert (FC : Forall (fun p => 0 < fst p + snd p)%R (combine a b)).
      { rewrite EC. apply Forall_map, Forall_forall. intros j Hj. cbn [fst snd]. rewrite <- plus_INR. apply lt_0_INR. specialize (U j Hj). apply andb_false_iff in U as [U|U]; apply Nat.eqb_neq in U; lia. }
      assert (PR : proportional a b <-> forall j, In j (oth k x) -> m2 * M1 j = m1 * M2 j).
      { unfold proportional. rewrite EC, Sa, Sb, Forall_map, Forall_forall. cbn [fst snd]. split; intros H j Hj; specialize (H j Hj).
        - apply INR_eq. rewrite !mult_INR. exact H.
        - rewrite <- !mult_INR, H. reflexivity. }
      destruct HQ as [_ [_ [Q3 [_ [_ A2]]]]]. destruct (Q3 (1 - chi_alpha P)%R (k - 1)) as [q [Eq Pq]]; [lra|lia|].
      destruct (Req_dec (pearson a b) 0) as [Ez|Ez].
      * exists (max 2 N). split; [lia|]. intros n Hn. pose proof (proj1 (pearson_zero a b Pa Pb FC) Ez) as PP. split; intros _.
        -- right; right. split; [lra|]. right. apply PR, PP.
        -- right; right. split; [right; apply B, Hn|]. right. intros q' Hq. rewrite Hq in Eq. injection Eq as ->. rewrite !row_n. fold a b. rewrite pearson_scale, Ez by (apply lt_0_INR; lia). lra.
      * assert (PP : (0 < pearson a b)%R) by (pose proof (pearson_nonneg a b Pa Pb FC); lra). destruct (pearson_eventually a b q PP) as [n1 [N1 N2]].
        exists (max (max 2 N) n1). split; [lia|]. intros n Hn. split.
        -- intros [A|[A|[_ [A|A]]]]; [rewrite exits_n in A; nia|rewrite exits_n in A; nia| |].
           ++ apply unseen_n in A; [contradiction|lia].
           ++ exfalso. specialize (A q Eq). rewrite !row_n in A. fold a b in A. specialize (N2 n ltac:(lia)). lra.
        -- intros [A|[A|[_ [A|A]]]]; [contradiction|contradiction|contradiction|]. exfalso. apply Ez, (pearson_zero a b Pa Pb FC), PR, A.
  - destruct (ratio_far m1 m2 T1 T2 ltac:(lia) ltac:(lia) P1 P2 E) as [eps [N0 [Pe He]]]. destruct (HS m1 m2 eps 0%R ltac:(lia) ltac:(lia) Pe) as [N HN].
    exists (max 2 (max N N0)). split; [lia|]. intros n Hn. split.
    + intros [A|[A|[A _]]]; [rewrite exits_n in A; nia|rewrite exits_n in A; nia|exfalso]. rewrite !exits_n in A. destruct A as [[A _]|[_ [_ A]]]; [nia|]. rewrite ratio_n in A.
      destruct (HN n ltac:(lia)) as [lo [hi [F1 [F2 [F3 F4]]]]]. rewrite F1, F2 in A. destruct A as [A1 A2]. specialize (A1 _ eq_refl). specialize (A2 _ eq_refl). specialize (He n ltac:(lia)).
      unfold Rabs in He. destruct (Rcase_abs _) in He; lra.
    + intros [A|[A|[A _]]]; [contradiction|contradiction|]. exfalso. apply E. lra.
Qed.
End cell.
