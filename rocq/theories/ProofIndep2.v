(** Exactly which pairs of CIMs pass the tests; symmetry; binary variables. *)
From Coq Require Import Reals Qreals Lra.
From Verif Require Import Base Lib ModelCims ModelData ModelFamScore ModelIndep SpecFamScore SpecIndep ProofParams ProofParams3 ProofFamScore ProofFamScore2 ProofIndep.
Open Scope nat_scope.

Lemma all_states_ok f vals : (forall v, In v vals -> exists b, f v = Ok b) -> exists b, all_states f vals = Ok b /\ (b = true <-> forall v, In v vals -> f v = Ok true).
Proof.
  induction vals as [|v r IH]; intros H; [exists true; split; [reflexivity|]; split; [intros _ v []|reflexivity]|]. cbn [all_states].
  destruct (H v (or_introl eq_refl)) as [b Hb]. rewrite Hb. cbn [bind]. destruct b.
  - destruct IH as [b [E K]]; [intros; apply H; right; assumption|]. exists b. split; [exact E|]. rewrite K. split.
    + intros F u [<-|Hu]; [exact Hb|apply F, Hu]. + intros F u Hu. apply F. right. exact Hu.
  - exists false. split; [reflexivity|]. split; [discriminate|]. intros F. specialize (F v (or_introl eq_refl)). congruence.
Qed.

Section tests.
Variable P : test_params.
Hypothesis HQ : quantiles_ok P.
Variables (n : nat) (c1 c2 : cim).
Hypothesis H1 : computed_cim n c1.
Hypothesis H2 : computed_cim n c2.

Definition exp_accepts (x : nat) : Prop :=
  exits c1 x = 0%Z \/ exits c2 x = 0%Z \/ (exits c1 x = 1%Z /\ exits c2 x = 1%Z)
   \/ (2 <= exits c1 x /\ 2 <= exits c2 x
       /\ between (f_ppf P (exp_alpha P / 2)%R (exits c1 x) (exits c2 x)) (smoothed_ratio c1 c2 x)
                  (f_ppf P (1 - exp_alpha P / 2)%R (exits c1 x) (exits c2 x)))%Z.

Lemma exp_state x : x < n -> exists b, exp_test_state P c1 c2 x = Ok b /\ (b = true <-> exp_accepts x).
Proof.
  intros Hx. destruct (computed_diag n c1 x H1 Hx) as [q1 [E1 K1]]. destruct (computed_diag n c2 x H2 Hx) as [q2 [E2 K2]].
  unfold exp_test_state, F_stat. rewrite E1, E2. cbn [bind]. rewrite (stats_exit n c1 (proj1 H1) x Hx), (stats_exit n c2 (proj1 H2) x Hx). cbn [bind].
  eexists. split; [reflexivity|]. rewrite K1, K2. unfold exp_accepts, smoothed_ratio.
  destruct (stats_time n c1 (proj1 H1) x Hx) as [T1 _]. destruct (stats_time n c2 (proj1 H2) x Hx) as [T2 _].
  pose proof (stats_nonneg n c1 (proj1 H1) x x) as N1. pose proof (stats_nonneg n c2 (proj1 H2) x x) as N2. fold (exits c1 x) in N1. fold (exits c2 x) in N2.
  destruct HQ as [Q1 [Q2 [_ [_ [[A1 A2] _]]]]].
  set (r1 := exits c1 x) in *. set (r2 := exits c2 x) in *. set (t1 := time_in c1 x) in *. set (t2 := time_in c2 x) in *. clearbody r1 r2 t1 t2.
  destruct (Z.eq_dec r1 0) as [->|R1]; [rewrite !Q2, xlt_nan_r, xgt_nan_r by auto; cbn; split; auto|].
  destruct (Z.eq_dec r2 0) as [->|R2]; [rewrite !Q2, xlt_nan_r, xgt_nan_r by auto; cbn; split; auto|].
  destruct (Q1 (exp_alpha P / 2)%R r1 r2) as [lo [El Pl]]; [lra|lia|lia|].
  destruct (Q1 (1 - exp_alpha P / 2)%R r1 r2) as [hi [Eh Ph]]; [lra|lia|lia|]. rewrite El, Eh.
  destruct (Z.eq_dec r1 1) as [->|R1'].
  - replace ((1 - 1) / (t1 + 1))%R with 0%R by (field; lra). rewrite xdiv_0.
    destruct (Z.eq_dec r2 1) as [->|R2'].
    + replace ((1 - 1) / (t2 + 1))%R with 0%R by (field; lra). rewrite inf_of_sign_0, xlt_nan_l, xgt_nan_l. cbn. split; auto.
    + rewrite inf_of_sign_neg.
      * cbn. split; [discriminate|]. intros K; exfalso; repeat destruct K as [K|K]; try lia.
      * assert (2 <= IZR r2)%R by (apply IZR_le; lia). unfold Rdiv. apply Ropp_lt_cancel. rewrite Ropp_0, Ropp_mult_distr_l.
        apply Rmult_lt_0_compat; [lra|apply Rinv_0_lt_compat; lra].
  - assert (B1 : (2 <= IZR r1)%R) by (apply IZR_le; lia).
    assert (D1 : ((1 - IZR r1) / (t1 + 1) <> 0)%R).
    { unfold Rdiv. apply Rmult_integral_contrapositive_currified; [lra|]. apply Rinv_neq_0_compat. lra. }
    rewrite xdiv_fin by exact D1.
    destruct (Z.eq_dec r2 1) as [->|R2'].
    + replace ((1 - 1) / (t2 + 1) / ((1 - IZR r1) / (t1 + 1)))%R with 0%R by (field; repeat split; lra).
      split.
      * intros K. exfalso. apply negb_true_iff, orb_false_iff in K as [K _]. apply xlt_fin_false in K. lra.
      * intros K; exfalso; repeat destruct K as [K|K]; try lia.
    + assert (B2 : (2 <= IZR r2)%R) by (apply IZR_le; lia).
      replace ((1 - IZR r2) / (t2 + 1) / ((1 - IZR r1) / (t1 + 1)))%R with ((IZR r2 - 1) / (t2 + 1) / ((IZR r1 - 1) / (t1 + 1)))%R by (field; repeat split; lra).
      rewrite negb_true_iff, orb_false_iff. unfold xgt. rewrite !xlt_fin_false. split.
      * intros [K3 K4]. right; right; right. split; [lia|]. split; [lia|]. split; intros z Hz; injection Hz as <-; assumption.
      * intros [K|[K|[K|[_ [_ [K3 K4]]]]]]; try lia. split; [apply K3|apply K4]; reflexivity.
Qed.

Definition chi_accepts (x : nat) : Prop :=
  exits c1 x = 0%Z \/ exits c2 x = 0%Z \/ unseen_cell n c1 c2 x
  \/ forall q, chi2_ppf P (1 - chi_alpha P)%R (n - 1) = Fin q -> (pearson (jump_row n c1 x) (jump_row n c2 x) <= q)%R.

Lemma unseen_dec x : unseen_cell n c1 c2 x \/ ~ unseen_cell n c1 c2 x.
Proof.
  destruct (existsb (fun j => negb (j =? x) && (jumps_of c1 x j =? 0)%Z && (jumps_of c2 x j =? 0)%Z) (seq 0 n)) eqn:E.
  - left. apply existsb_exists in E as [j [J1 J2]]. apply in_seq in J1. rewrite !andb_true_iff in J2. destruct J2 as [[J2 J3] J4].
    exists j. apply Z.eqb_eq in J3, J4. destruct (Nat.eqb_spec j x); [discriminate|]. repeat split; auto. lia.
  - right. intros [j [J1 [J2 [J3 J4]]]]. assert (K : existsb (fun j => negb (j =? x) && (jumps_of c1 x j =? 0)%Z && (jumps_of c2 x j =? 0)%Z) (seq 0 n) = true).
    { apply existsb_exists. exists j. split; [apply in_seq; lia|]. rewrite J3, J4. destruct (Nat.eqb_spec j x); [contradiction|reflexivity]. }
    congruence.
Qed.

Lemma chi_state x : x < n -> exists b, chi_test_state P n c1 c2 x = Ok b /\ (b = true <-> chi_accepts x).
Proof.
  intros Hx. unfold chi_test_state, chi_accepts.
  pose proof (stats_nonneg n c1 (proj1 H1) x x) as N1. pose proof (stats_nonneg n c2 (proj1 H2) x x) as N2. fold (exits c1 x) in N1. fold (exits c2 x) in N2.
  destruct HQ as [_ [_ [Q3 [Q4 [_ [A1 A2]]]]]].
  destruct (Nat.eq_dec n 1) as [En|En].
  - destruct (chi_ok n c1 c2 (proj1 H1) (proj1 H2) x Hx) as [v ->]. cbn [bind]. eexists. split; [reflexivity|].
    replace (n - 1) with 0 by lia. rewrite Q4, xgt_nan_r. cbn. split; auto. intros _. left. eapply (exits_one n c1 c2); [apply H1|apply H2|exact Hx|exact En].
  - assert (Hn : 2 <= n) by lia.
    assert (HZ : exits c1 x = 0%Z \/ exits c2 x = 0%Z -> exists b, (let* chi := chi_stat c1 c2 x in Ok (negb (xgt chi (chi2_ppf P (1 - chi_alpha P) (n - 1))))) = Ok b /\ b = true).
    { intros K. rewrite (chi_no_exit n c1 c2 (proj1 H1) (proj1 H2) x Hx K Hn). cbn [bind]. rewrite xgt_nan_l. exists true. auto. }
    destruct (Z.eq_dec (exits c1 x) 0) as [R1|R1]; [destruct (HZ (or_introl R1)) as [b [Eb ->]]; exists true; split; [exact Eb|]; split; auto|].
    destruct (Z.eq_dec (exits c2 x) 0) as [R2|R2]; [destruct (HZ (or_intror R2)) as [b [Eb ->]]; exists true; split; [exact Eb|]; split; auto|].
    clear HZ. destruct (unseen_dec x) as [U|U].
    + rewrite (chi_unseen n c1 c2 (proj1 H1) (proj1 H2) x Hx U). cbn [bind]. rewrite xgt_nan_l. exists true. split; [reflexivity|]. split; auto.
    + rewrite (chi_pearson n c1 c2 (proj1 H1) (proj1 H2) x Hx) by (assumption || lia). cbn [bind].
      destruct (Q3 (1 - chi_alpha P)%R (n - 1)) as [q [Eq Pq]]; [lra|lia|]. rewrite Eq. eexists. split; [reflexivity|].
      unfold xgt. rewrite negb_true_iff, xlt_fin_false. split.
      * intros K. right; right; right. intros z Hz. injection Hz as <-. exact K.
      * intros [K|[K|[K|K]]]; try contradiction. apply K. reflexivity.
Qed.

Lemma tests_characterised : exists b, stat_tests P n c1 c2 = Ok b /\ (b = true <-> forall x, x < n -> state_accepts P n c1 c2 x).
Proof.
  unfold stat_tests.
  destruct (all_states_ok (exp_test_state P c1 c2) (seq 0 n)) as [b1 [E1 K1]].
  { intros v Hv. apply in_seq in Hv. destruct (exp_state v) as [b [E _]]; [lia|]. eauto. }
  destruct (all_states_ok (chi_test_state P n c1 c2) (seq 0 n)) as [b2 [E2 K2]].
  { intros v Hv. apply in_seq in Hv. destruct (chi_state v) as [b [E _]]; [lia|]. eauto. }
  assert (X1 : b1 = true <-> forall x, x < n -> exp_accepts x).
  { rewrite K1. split; intros F x Hx.
    - destruct (exp_state x Hx) as [b [Eb Kb]]. apply Kb. specialize (F x ltac:(apply in_seq; lia)). congruence.
    - apply in_seq in Hx. destruct (exp_state x) as [b [Eb Kb]]; [lia|]. rewrite Eb. f_equal. apply Kb, F. lia. }
  assert (X2 : b2 = true <-> forall x, x < n -> chi_accepts x).
  { rewrite K2. split; intros F x Hx.
    - destruct (chi_state x Hx) as [b [Eb Kb]]. apply Kb. specialize (F x ltac:(apply in_seq; lia)). congruence.
    - apply in_seq in Hx. destruct (chi_state x) as [b [Eb Kb]]; [lia|]. rewrite Eb. f_equal. apply Kb, F. lia. }
  rewrite E1. cbn [bind]. exists (b1 && b2). split; [destruct b1; [exact E2|reflexivity]|].
  rewrite andb_true_iff, X1, X2. unfold exp_accepts, chi_accepts, state_accepts. split.
  - intros [F1 F2] x Hx. specialize (F1 x Hx). specialize (F2 x Hx). tauto.
  - intros F. split; intros x Hx; specialize (F x Hx); tauto.
Qed.
Lemma the_tests_iff : the_tests P n c1 c2 = true <-> forall x, x < n -> state_accepts P n c1 c2 x.
Proof. unfold the_tests. destruct tests_characterised as [b [-> K]]. exact K. Qed.
End tests.

(** ** swapping the two CIMs *)
Lemma unseen_sym n c1 c2 x : unseen_cell n c1 c2 x -> unseen_cell n c2 c1 x.
Proof. intros [j [A [B [C D]]]]. exists j. auto. Qed.
Lemma accepts_sym P n c1 c2 x : quantiles_ok P -> f_reciprocal P -> computed_cim n c1 -> computed_cim n c2 -> x < n ->
  state_accepts P n c1 c2 x -> state_accepts P n c2 c1 x.
Proof.
  intros HQ HF H1 H2 Hx [K|[K|[K1 K2]]]; [right; left; exact K|left; exact K|]. right; right. split.
  - destruct K1 as [[A B]|[A [B [C D]]]]; [left; auto|]. right. split; [exact B|]. split; [exact A|].
    destruct HQ as [Q1 [_ [_ [_ [[A1 A2] _]]]]].
    destruct (Q1 (exp_alpha P / 2)%R (exits c1 x) (exits c2 x)) as [lo [El Pl]]; [lra|lia|lia|].
    destruct (Q1 (1 - exp_alpha P / 2)%R (exits c1 x) (exits c2 x)) as [hi [Eh Ph]]; [lra|lia|lia|].
    pose proof (C lo El) as C1. pose proof (D hi Eh) as D1.
    assert (El' : f_ppf P (1 - exp_alpha P / 2)%R (exits c2 x) (exits c1 x) = Fin (/ lo)%R) by (apply HF; [lra|lia|lia|exact El]).
    assert (Eh' : f_ppf P (exp_alpha P / 2)%R (exits c2 x) (exits c1 x) = Fin (/ hi)%R).
    { replace (exp_alpha P / 2)%R with (1 - (1 - exp_alpha P / 2))%R by lra. apply HF; [lra|lia|lia|exact Eh]. }
    destruct (stats_time n c1 (proj1 H1) x Hx) as [T1 _]. destruct (stats_time n c2 (proj1 H2) x Hx) as [T2 _].
    assert (B1 : (2 <= IZR (exits c1 x))%R) by (apply IZR_le; lia). assert (B2 : (2 <= IZR (exits c2 x))%R) by (apply IZR_le; lia).
    assert (ES : smoothed_ratio c2 c1 x = (/ smoothed_ratio c1 c2 x)%R) by (unfold smoothed_ratio; field; repeat split; lra).
    assert (SP : (0 < smoothed_ratio c1 c2 x)%R) by lra.
    split; intros z Hz; rewrite ES.
    + rewrite Eh' in Hz. injection Hz as <-. apply Rinv_le_contravar; assumption.
    + rewrite El' in Hz. injection Hz as <-. apply Rinv_le_contravar; assumption.
  - destruct K2 as [K2|K2]; [left; apply unseen_sym, K2|]. right. intros q Hq. rewrite pearson_sym. apply K2, Hq.
Qed.
Lemma tests_sym P n c1 c2 : quantiles_ok P -> f_reciprocal P -> computed_cim n c1 -> computed_cim n c2 ->
  stat_tests P n c1 c2 = stat_tests P n c2 c1.
Proof.
  intros HQ HF H1 H2. destruct (tests_characterised P HQ n c1 c2 H1 H2) as [b [E K]]. destruct (tests_characterised P HQ n c2 c1 H2 H1) as [b' [E' K']].
  rewrite E, E'. f_equal. apply Bool.eq_iff_eq_true. rewrite K, K'. split; intros F x Hx; apply accepts_sym; auto.
Qed.

(** ** binary variables *)
Lemma binary_pearson c1 c2 x : stats_ok 2 c1 -> stats_ok 2 c2 -> x < 2 -> (0 < exits c1 x)%Z -> (0 < exits c2 x)%Z ->
  pearson (jump_row 2 c1 x) (jump_row 2 c2 x) = 0%R.
Proof.
  intros H1 H2 Hx R1 R2. pose proof (stats_total 2 c1 H1 x Hx) as T1. pose proof (stats_total 2 c2 H2 x Hx) as T2.
  assert (EL : exists j, other_states 2 x = [j]) by (destruct x as [|[|x]]; [exists 1|exists 0|lia]; reflexivity).
  destruct EL as [j EL]. apply IZR_lt in R1, R2. unfold jump_row in *. rewrite EL in *. cbn [map] in *.
  apply pearson_zero.
  - rewrite <- T1. exact R1. - rewrite <- T2. exact R2.
  - unfold Rsum in T1, T2. cbn [fold_right] in T1, T2. constructor; [cbn [fst snd]; lra|constructor].
  - constructor; [cbn [fst snd]; unfold Rsum; cbn [fold_right]; lra|constructor].
Qed.
Lemma binary_chi P c1 c2 x : quantiles_ok P -> computed_cim 2 c1 -> computed_cim 2 c2 -> x < 2 -> chi_test_state P 2 c1 c2 x = Ok true.
Proof.
  intros HQ H1 H2 Hx. destruct (chi_state P HQ 2 c1 c2 H1 H2 x Hx) as [b [E K]]. rewrite E. f_equal. apply K.
  pose proof (stats_nonneg 2 c1 (proj1 H1) x x) as N1. pose proof (stats_nonneg 2 c2 (proj1 H2) x x) as N2. fold (exits c1 x) in N1. fold (exits c2 x) in N2.
  unfold chi_accepts. destruct (Z.eq_dec (exits c1 x) 0); [auto|]. destruct (Z.eq_dec (exits c2 x) 0); [auto|]. right; right; right.
  intros q Hq. rewrite binary_pearson by (apply H1 || apply H2 || lia). destruct HQ as [_ [_ [Q3 [_ [_ [A1 A2]]]]]].
  destruct (Q3 (1 - chi_alpha P)%R (2 - 1)) as [q' [Eq Pq]]; [lra|lia|]. rewrite Hq in Eq. injection Eq as <-. lra.
Qed.

(** proportional rows never reject in the chi-square step *)
Lemma proportional_chi P n c1 c2 x : quantiles_ok P -> computed_cim n c1 -> computed_cim n c2 -> x < n ->
  proportional (jump_row n c1 x) (jump_row n c2 x) -> chi_test_state P n c1 c2 x = Ok true.
Proof.
  intros HQ H1 H2 Hx HP. destruct (chi_state P HQ n c1 c2 H1 H2 x Hx) as [b [E K]]. rewrite E. f_equal. apply K.
  pose proof (stats_nonneg n c1 (proj1 H1) x x) as N1. pose proof (stats_nonneg n c2 (proj1 H2) x x) as N2. fold (exits c1 x) in N1. fold (exits c2 x) in N2.
  unfold chi_accepts. destruct (Z.eq_dec (exits c1 x) 0) as [|R1]; [auto|]. destruct (Z.eq_dec (exits c2 x) 0) as [|R2]; [auto|]. right; right.
  destruct (unseen_dec n c1 c2 x) as [U|U]; [left; exact U|right]. intros q Hq.
  assert (Z : pearson (jump_row n c1 x) (jump_row n c2 x) = 0%R).
  { apply pearson_zero; [| | |exact HP].
    - rewrite <- (stats_total n c1 (proj1 H1) x Hx). apply IZR_lt. lia.
    - rewrite <- (stats_total n c2 (proj1 H2) x Hx). apply IZR_lt. lia.
    - unfold jump_row. rewrite combine_map_same. apply Forall_map, Forall_forall. intros j Hj. cbn [fst snd]. rewrite <- plus_IZR. apply IZR_lt.
      apply other_states_In in Hj as [J1 J2]. pose proof (stats_nonneg n c1 (proj1 H1) x j). pose proof (stats_nonneg n c2 (proj1 H2) x j).
      destruct (Z.eq_dec (jumps_of c1 x j + jumps_of c2 x j) 0); [|lia]. exfalso. apply U. exists j. repeat split; auto; lia. }
  rewrite Z. destruct HQ as [_ [_ [Q3 [Q4 [_ [A1 A2]]]]]]. destruct (Nat.eq_dec (n - 1) 0) as [En|En].
  - rewrite En in Hq. rewrite Q4 in Hq. discriminate.
  - destruct (Q3 (1 - chi_alpha P)%R (n - 1)) as [q' [Eq Pq]]; [lra|lia|]. rewrite Hq in Eq. injection Eq as <-. lra.
Qed.

(** estimated CIMs are computed CIMs *)
Lemma exact_cim_computed t tot ni pis c u : Forall (fun q => 0 <= q)%Qc (t_times t) -> computed_cim c (ProofParams3.exact_cim t tot ni pis c u).
Proof.
  intros Hp. unfold ProofParams3.exact_cim. split; [|reflexivity]. split; [|split; [|split]].
  - cbn [compute_cim_coefficients new_cim c_times c_trans]. unfold SpecParams.exact_times. rewrite map_length, seq_length. reflexivity.
  - cbn [compute_cim_coefficients new_cim c_times c_trans]. unfold SpecParams.exact_counts. rewrite map_length, seq_length. reflexivity.
  - cbn [compute_cim_coefficients new_cim c_times c_trans]. intros x T H. unfold SpecParams.exact_times in H. rewrite map_nth_error_iff in H.
    destruct (nth_error (seq 0 c) x) as [y|]; [|discriminate]. injection H as <-. unfold SpecParams.dwell_time.
    assert (G : forall l, Forall (fun q => 0 <= q)%Qc l -> (0 <= Qcsum l)%Qc).
    { induction 1 as [|a l Ha Hl IH]; [apply Qcle_refl|]. unfold Qcsum in *; cbn [fold_right].
      replace 0%Qc with (0 + 0)%Qc by ring. apply Qcplus_le_compat; assumption. }
    apply G, Forall_map, Forall_forall. intros [q row] Hq. apply filter_In in Hq as [Hq _]. apply in_combine_l in Hq. cbn [fst].
    rewrite Forall_forall in Hp. apply Hp, Hq.
  - cbn [compute_cim_coefficients new_cim c_times c_trans]. intros x row H. unfold SpecParams.exact_counts in H. rewrite map_nth_error_iff in H.
    destruct (nth_error (seq 0 c) x) as [y|] eqn:Ey; [|discriminate]. injection H as <-.
    assert (Hx : x < c). { destruct (Nat.lt_ge_cases x c) as [K|K]; [exact K|]. exfalso. assert (N : nth_error (seq 0 c) x = None) by (apply nth_error_None; rewrite seq_length; exact K). congruence. }
    rewrite nth_seq_lt in Ey by exact Hx. injection Ey as <-.
    assert (J : forall y, (0 <= SpecParams.jumps t tot ni pis u x y)%Z) by (intros y; unfold SpecParams.jumps, SpecParams.row_count; lia).
    split; [rewrite map_length, seq_length; reflexivity|]. split.
    + apply Forall_map, Forall_forall. intros y _. destruct (y =? x); [|apply J].
      assert (G : forall l, (0 <= Zsum (map (fun y => if Nat.eqb y x then 0%Z else SpecParams.jumps t tot ni pis u x y) l))%Z).
      { unfold Zsum. induction l as [|a l IH]; cbn [map fold_right]; [lia|]. destruct (Nat.eqb a x); [lia|]. pose proof (J a). lia. }
      apply G.
    + rewrite map_nth_error_iff, nth_seq_lt by exact Hx. cbn [option_map]. rewrite Nat.eqb_refl. do 2 f_equal. apply map_ext_in.
      intros y Hy. apply in_seq in Hy. destruct (Nat.eqb_spec y x); [reflexivity|].
      rewrite (nth_error_nth _ y 0%Z (x := SpecParams.jumps t tot ni pis u x y)); [reflexivity|].
      rewrite map_nth_error_iff, nth_seq_lt by lia. cbn [option_map]. destruct (Nat.eqb_spec y x); [contradiction|reflexivity].
Qed.
