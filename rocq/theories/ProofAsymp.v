(** Real analysis for C88: how sums of logarithms grow (Stirling up to a constant). *)
From Coq Require Import Reals Lra Lia List.
From Verif Require Import Base ModelFamScore.
Import ListNotations.
Open Scope R_scope.

(** ** bounds for ln (1 + y) *)
Lemma d_ln1 y : 0 <= y -> derivable_pt_lim (fun y => ln (1 + y)) y (/ (1 + y)).
Proof.
  intros H. replace (/ (1 + y)) with (/ (1 + y) * (0 + 1)) by ring.
  apply (derivable_pt_lim_comp (fun y => 1 + y) ln y (0 + 1) (/ (1 + y))).
  - apply (derivable_pt_lim_plus (fct_cte 1) id); [apply derivable_pt_lim_const|apply derivable_pt_lim_id].
  - apply derivable_pt_lim_ln. lra.
Qed.
Lemma d_sq y : derivable_pt_lim (fun y => y * y) y (2 * y).
Proof. replace (2 * y) with (1 * y + y * 1) by ring. apply (derivable_pt_lim_mult id id); apply derivable_pt_lim_id. Qed.
Lemma d_cube y : derivable_pt_lim (fun y => y * y * y) y (3 * (y * y)).
Proof. replace (3 * (y * y)) with (2 * y * y + y * y * 1) by ring. apply (derivable_pt_lim_mult (fun y => y * y) id); [apply d_sq|apply derivable_pt_lim_id]. Qed.
Lemma d_scal c f y l : derivable_pt_lim f y l -> derivable_pt_lim (fun y => c * f y) y (c * l).
Proof. apply (derivable_pt_lim_scal f c y l). Qed.
Lemma ln1_lower y : 0 <= y -> y - y * y / 2 <= ln (1 + y).
Proof.
  intros H. destruct (Req_dec y 0) as [->|N]; [rewrite Rplus_0_r, ln_1; lra|].
  destruct (MVT_cor2 (fun y => ln (1 + y) - (y - / 2 * (y * y))) (fun y => / (1 + y) - (1 - / 2 * (2 * y))) 0 y) as [c [E Hc]]; [lra| |].
  - intros c Hc. apply (derivable_pt_lim_minus (fun y => ln (1 + y)) (fun y => y - / 2 * (y * y))); [apply d_ln1; lra|].
    apply (derivable_pt_lim_minus id (fun y => / 2 * (y * y))); [apply derivable_pt_lim_id|apply d_scal, d_sq].
  - rewrite Rplus_0_r, ln_1 in E. assert (P : 0 <= / (1 + c) - (1 - / 2 * (2 * c))).
    { replace (/ (1 + c) - (1 - / 2 * (2 * c))) with (c * c / (1 + c)) by (field; lra). apply Rmult_le_pos; [nra|left; apply Rinv_0_lt_compat; lra]. }
    assert (0 <= (/ (1 + c) - (1 - / 2 * (2 * c))) * (y - 0)) by (apply Rmult_le_pos; lra). lra.
Qed.
Lemma ln1_upper y : 0 <= y -> ln (1 + y) <= y - y * y / 2 + y * y * y / 3.
Proof.
  intros H. destruct (Req_dec y 0) as [->|N]; [rewrite Rplus_0_r, ln_1; lra|].
  destruct (MVT_cor2 (fun y => (y - / 2 * (y * y) + / 3 * (y * y * y)) - ln (1 + y)) (fun y => (1 - / 2 * (2 * y) + / 3 * (3 * (y * y))) - / (1 + y)) 0 y) as [c [E Hc]]; [lra| |].
  - intros c Hc. apply (derivable_pt_lim_minus (fun y => y - / 2 * (y * y) + / 3 * (y * y * y)) (fun y => ln (1 + y))); [|apply d_ln1; lra].
    apply (derivable_pt_lim_plus (fun y => y - / 2 * (y * y)) (fun y => / 3 * (y * y * y))); [|apply d_scal, d_cube].
    apply (derivable_pt_lim_minus id (fun y => / 2 * (y * y))); [apply derivable_pt_lim_id|apply d_scal, d_sq].
  - rewrite Rplus_0_r, ln_1 in E. assert (P : 0 <= (1 - / 2 * (2 * c) + / 3 * (3 * (c * c))) - / (1 + c)).
    { replace ((1 - / 2 * (2 * c) + / 3 * (3 * (c * c))) - / (1 + c)) with (c * c * c / (1 + c)) by (field; lra). apply Rmult_le_pos; [|left; apply Rinv_0_lt_compat; lra].
      apply Rmult_le_pos; [nra|lra]. }
    assert (0 <= ((1 - / 2 * (2 * c) + / 3 * (3 * (c * c))) - / (1 + c)) * (y - 0)) by (apply Rmult_le_pos; lra). lra.
Qed.
Lemma ln_below x : 0 < x -> ln x <= x - 1.
Proof.
  intros H. destruct (Req_dec x 1) as [->|N]; [rewrite ln_1; lra|]. assert (K : x - 1 <> 0) by lra. pose proof (exp_ineq1 (x - 1) K) as E.
  left. apply exp_lt_inv. rewrite exp_ln by exact H. lra.
Qed.
Lemma ln_below_lt x : 0 < x -> x <> 1 -> ln x < x - 1.
Proof. intros H N. assert (K : x - 1 <> 0) by lra. pose proof (exp_ineq1 (x - 1) K) as E. apply exp_lt_inv. rewrite exp_ln by exact H. lra. Qed.
Lemma ln1_small y : 0 <= y -> 0 <= ln (1 + y) <= y.
Proof. intros H. pose proof (ln_below (1 + y)) as B. split; [|lra]. destruct (Req_dec y 0) as [->|N]; [rewrite Rplus_0_r, ln_1; lra|]. left. rewrite <- ln_1. apply ln_increasing; lra. Qed.

(** ** sums of logarithms *)
Definition lsum (a : R) (n : nat) : R := Rsum (map (fun i => ln (a + INR i)) (seq 0 n)).
Lemma lsum_S a n : lsum a (S n) = lsum a n + ln (a + INR n).
Proof.
  unfold lsum. rewrite seq_S, map_app. cbn [map Nat.add]. unfold Rsum. generalize (map (fun i => ln (a + INR i)) (seq 0 n)). induction l as [|x l IH]; cbn [app fold_right]; [lra|]. rewrite IH. lra.
Qed.
Definition stirling (x : R) : R := (x - / 2) * ln x - x.
Lemma stirling_step a x : 0 < a -> a <= x -> Rabs (stirling (x + 1) - stirling x - ln x) <= (/ 4 + / (6 * a)) * (1 + / a) * (/ x - / (x + 1)).
Proof.
  intros Ha Hx. assert (X : 0 < x) by lra. set (y := / x). assert (Y : 0 < y) by (apply Rinv_0_lt_compat, X). assert (YA : y <= / a) by (apply Rinv_le_contravar; lra).
  assert (XY : x * y = 1) by (unfold y; field; lra).
  assert (E : stirling (x + 1) - stirling x - ln x = (x + / 2) * ln (1 + y) - 1).
  { unfold stirling. replace (x + 1) with (x * (1 + y)) at 2 by (rewrite Rmult_plus_distr_l, XY; ring). rewrite ln_mult by lra. field. }
  rewrite E. pose proof (ln1_lower y ltac:(lra)) as L. pose proof (ln1_upper y ltac:(lra)) as U.
  assert (B : Rabs ((x + / 2) * ln (1 + y) - 1) <= (/ 4 + y / 6) * (y * y)).
  { assert (L' : (x + / 2) * (y - y * y / 2) <= (x + / 2) * ln (1 + y)) by (apply Rmult_le_compat_l; lra).
    assert (U' : (x + / 2) * ln (1 + y) <= (x + / 2) * (y - y * y / 2 + y * y * y / 3)) by (apply Rmult_le_compat_l; lra).
    replace ((x + / 2) * (y - y * y / 2)) with (x * y - x * y * y / 2 + y / 2 - y * y / 4) in L' by field.
    replace ((x + / 2) * (y - y * y / 2 + y * y * y / 3)) with (x * y - x * y * y / 2 + x * y * (y * y) / 3 + y / 2 - y * y / 4 + y * y * y / 6) in U' by field.
    rewrite XY in L', U'. assert (0 < y * y) by nra. assert (0 < y * y * y) by (apply Rmult_lt_0_compat; assumption).
    replace ((/ 4 + y / 6) * (y * y)) with (y * y / 4 + y * y * y / 6) by field. apply Rabs_le. lra. }
  eapply Rle_trans; [exact B|]. assert (D : y - / (x + 1) = y * y / (1 + y)).
  { replace (/ (x + 1)) with (y / (1 + y)); [field; lra|]. unfold y. field. lra. }
  rewrite D. assert (IA : 0 < / a) by (apply Rinv_0_lt_compat, Ha). replace (/ (6 * a)) with (/ a / 6) by (field; lra).
  assert (K : y * y <= (1 + / a) * (y * y / (1 + y))).
  { replace ((1 + / a) * (y * y / (1 + y))) with (y * y * ((1 + / a) / (1 + y))) by (field; lra). rewrite <- (Rmult_1_r (y * y)) at 1. apply Rmult_le_compat_l; [nra|].
    apply (Rmult_le_reg_r (1 + y)); [lra|]. unfold Rdiv. rewrite Rmult_assoc, Rinv_l by lra. lra. }
  rewrite Rmult_assoc. apply Rmult_le_compat; [lra|nra|lra|exact K].
Qed.
Lemma stirling_sum a : 0 < a -> exists C, forall n, Rabs (lsum a n - stirling (a + INR n)) <= C.
Proof.
  intros Ha. set (k := (/ 4 + / (6 * a)) * (1 + / a)). assert (IA : 0 < / a) by (apply Rinv_0_lt_compat, Ha).
  assert (K : 0 < k). { unfold k. assert (0 < / (6 * a)) by (apply Rinv_0_lt_compat; lra). apply Rmult_lt_0_compat; lra. }
  exists (Rabs (stirling a) + k * / a). intros n.
  assert (G : Rabs (lsum a n - stirling (a + INR n)) <= Rabs (stirling a) + k * (/ a - / (a + INR n))).
  { induction n as [|n IH].
    - unfold lsum. cbn [seq map INR]. unfold Rsum. cbn [fold_right]. rewrite Rplus_0_r. replace (0 - stirling a) with (- stirling a) by ring. rewrite Rabs_Ropp. replace (/ a - / a) with 0 by ring. lra.
    - rewrite lsum_S, S_INR. pose proof (pos_INR n) as P. pose proof (stirling_step a (a + INR n) Ha ltac:(lra)) as S1. fold k in S1.
      replace (a + (INR n + 1)) with (a + INR n + 1) by ring.
      replace (lsum a n + ln (a + INR n) - stirling (a + INR n + 1)) with ((lsum a n - stirling (a + INR n)) + - (stirling (a + INR n + 1) - stirling (a + INR n) - ln (a + INR n))) by ring.
      eapply Rle_trans; [apply Rabs_triang|]. rewrite Rabs_Ropp. replace (/ a - / (a + INR n + 1)) with ((/ a - / (a + INR n)) + (/ (a + INR n) - / (a + INR n + 1))) by ring. rewrite Rmult_plus_distr_l. lra. }
  eapply Rle_trans; [exact G|]. assert (0 < / (a + INR n)) by (apply Rinv_0_lt_compat; pose proof (pos_INR n); lra). apply Rplus_le_compat_l, Rmult_le_compat_l; lra.
Qed.

(** ** f n = c n ln n + a n + b ln n + O(1) *)
Definition grows (f : nat -> R) (c a b : R) : Prop :=
  exists C, forall n, (1 <= n)%nat -> Rabs (f n - (c * (INR n * ln (INR n)) + a * INR n + b * ln (INR n))) <= C.
Lemma grows_ext f g c a b c' a' b' : (forall n, (1 <= n)%nat -> f n = g n) -> c = c' -> a = a' -> b = b' -> grows f c a b -> grows g c' a' b'.
Proof. intros H -> -> -> [C HC]. exists C. intros n Hn. rewrite <- H by exact Hn. apply HC, Hn. Qed.
Lemma grows_plus f g c a b c' a' b' : grows f c a b -> grows g c' a' b' -> grows (fun n => f n + g n) (c + c') (a + a') (b + b').
Proof.
  intros [C HC] [D HD]. exists (C + D). intros n Hn. specialize (HC n Hn). specialize (HD n Hn).
  set (X := INR n * ln (INR n)) in *. set (Y := ln (INR n)) in *. set (N := INR n) in *.
  replace (f n + g n - ((c + c') * X + (a + a') * N + (b + b') * Y)) with ((f n - (c * X + a * N + b * Y)) + (g n - (c' * X + a' * N + b' * Y))) by ring.
  eapply Rle_trans; [apply Rabs_triang|]. lra.
Qed.
Lemma grows_scale k f c a b : grows f c a b -> grows (fun n => k * f n) (k * c) (k * a) (k * b).
Proof.
  intros [C HC]. exists (Rabs k * C). intros n Hn. specialize (HC n Hn). set (X := INR n * ln (INR n)) in *. set (Y := ln (INR n)) in *. set (N := INR n) in *.
  replace (k * f n - (k * c * X + k * a * N + k * b * Y)) with (k * (f n - (c * X + a * N + b * Y))) by ring. rewrite Rabs_mult. apply Rmult_le_compat_l; [apply Rabs_pos|exact HC].
Qed.
Lemma grows_const k : grows (fun _ => k) 0 0 0.
Proof. exists (Rabs k). intros n _. replace (k - _) with k by ring. lra. Qed.
Lemma grows_sum {A} (f : A -> nat -> R) (c a b : A -> R) l : (forall x, In x l -> grows (f x) (c x) (a x) (b x)) ->
  grows (fun n => Rsum (map (fun x => f x n) l)) (Rsum (map c l)) (Rsum (map a l)) (Rsum (map b l)).
Proof.
  induction l as [|x l IH]; intros H; [exact (grows_const 0)|]. unfold Rsum. cbn [map fold_right]. apply (grows_plus (f x)); [apply H; left; reflexivity|]. apply IH. intros y Hy. apply H. right. exact Hy.
Qed.
Lemma INR_ge1 n : (1 <= n)%nat -> 1 <= INR n.
Proof. intros H. apply (le_INR 1 n) in H. cbn in H. exact H. Qed.
(** (A + n m) ln (n T + b), for T > 0 *)
Lemma grows_log A m b T : 0 < T -> 0 <= b -> grows (fun n => (A + INR n * m) * ln (b + INR n * T)) m (m * ln T) A.
Proof.
  intros HT Hb. exists (Rabs A * Rabs (ln T) + (Rabs A + Rabs m) * (b / T)). intros n Hn. apply INR_ge1 in Hn. set (N := INR n) in *.
  assert (NT : 0 < N * T) by (apply Rmult_lt_0_compat; lra). set (y := b / (N * T)). assert (Y : 0 <= y) by (unfold y; apply Rmult_le_pos; [lra|left; apply Rinv_0_lt_compat, NT]).
  assert (E : ln (b + N * T) = ln N + ln T + ln (1 + y)).
  { replace (b + N * T) with (N * T * (1 + y)) by (unfold y; field; lra). rewrite !ln_mult by lra. ring. }
  rewrite E. replace ((A + N * m) * (ln N + ln T + ln (1 + y)) - (m * (N * ln N) + m * ln T * N + A * ln N)) with (A * ln T + (A + N * m) * ln (1 + y)) by ring.
  pose proof (ln1_small y Y) as [L1 L2]. eapply Rle_trans; [apply Rabs_triang|]. rewrite !Rabs_mult. apply Rplus_le_compat_l.
  rewrite (Rabs_right (ln (1 + y))) by lra.
  assert (T1 : Rabs (A + N * m) <= (Rabs A + Rabs m) * N).
  { eapply Rle_trans; [apply Rabs_triang|]. rewrite Rabs_mult, (Rabs_right N) by lra. pose proof (Rabs_pos A). nra. }
  assert (T2 : N * y = b / T) by (unfold y; field; lra).
  assert (P : 0 <= Rabs A + Rabs m) by (pose proof (Rabs_pos A); pose proof (Rabs_pos m); lra).
  apply Rle_trans with ((Rabs A + Rabs m) * N * y).
  - apply Rmult_le_compat; [apply Rabs_pos|lra|exact T1|exact L2].
  - rewrite Rmult_assoc, T2. lra.
Qed.
Lemma grows_lsum a m : 0 < a -> grows (fun n => lsum a (n * m)) (INR m) (INR m * ln (INR m) - INR m) (if (m =? 0)%nat then 0 else a - / 2).
Proof.
  intros Ha. destruct (Nat.eqb_spec m 0) as [->|N].
  - cbn [INR]. rewrite Rmult_0_l, Rminus_0_r. apply (grows_ext (fun _ => 0) _ 0 0 0); auto; [|apply grows_const]. intros n _. rewrite Nat.mul_0_r. reflexivity.
  - assert (M : 0 < INR m) by (apply lt_0_INR; lia). destruct (stirling_sum a Ha) as [C HC].
    assert (G1 : grows (fun n => lsum a (n * m) - stirling (a + INR n * INR m)) 0 0 0).
    { exists C. intros n _. rewrite <- mult_INR. replace (lsum a (n * m) - stirling (a + INR (n * m)) - _) with (lsum a (n * m) - stirling (a + INR (n * m))) by ring. apply HC. }
    assert (G2 : grows (fun n => stirling (a + INR n * INR m)) (INR m) (INR m * ln (INR m) - INR m) (a - / 2)).
    { apply (grows_ext (fun n => ((a - / 2) + INR n * INR m) * ln (a + INR n * INR m) + ((- INR m) * INR n + - a)) _ (INR m + 0) (INR m * ln (INR m) + (- INR m)) (a - / 2 + 0)); try lra.
      - intros n _. unfold stirling. ring.
      - apply grows_plus; [apply grows_log; lra|]. exists (Rabs (- a)). intros n _. replace (- INR m * INR n + - a - _) with (- a) by ring. lra. }
    apply (grows_ext (fun n => (lsum a (n * m) - stirling (a + INR n * INR m)) + stirling (a + INR n * INR m)) _ (0 + INR m) (0 + (INR m * ln (INR m) - INR m)) (0 + (a - / 2))); try lra.
    + intros n _. ring.
    + apply grows_plus; assumption.
Qed.
(** ** who wins in the end *)
Lemma eventually_up f a b : grows f 0 a b -> 0 < a -> exists N, (1 <= N)%nat /\ forall n, (N <= n)%nat -> 0 < f n.
Proof.
  intros [C HC] Ha. set (B := Rabs b + 1). assert (HB : 0 < B) by (unfold B; pose proof (Rabs_pos b); lra). set (e := a / (2 * B)). assert (He : 0 < e) by (unfold e; apply Rdiv_lt_0_compat; lra).
  set (K := 2 * (C + B * Rabs (- 1 - ln e) + 2) / a). destruct (archimed (Rabs K)) as [K1 _]. set (N := Z.to_nat (up (Rabs K))). exists (S N). split; [lia|]. intros n Hn.
  assert (Hn1 : (1 <= n)%nat) by lia. pose proof (HC n Hn1) as H. pose proof (INR_ge1 n Hn1) as I1. set (X := INR n) in *.
  assert (XK : K < X).
  { apply Rle_lt_trans with (Rabs K); [apply Rle_abs|]. apply Rlt_le_trans with (IZR (up (Rabs K))); [exact K1|]. unfold X. rewrite INR_IZR_INZ. apply IZR_le. unfold N in Hn. lia. }
  assert (L0 : 0 <= ln X) by (destruct (Req_dec X 1) as [->|]; [rewrite ln_1; lra|left; rewrite <- ln_1; apply ln_increasing; lra]).
  assert (L : ln X <= e * X - 1 - ln e). { pose proof (ln_below (e * X) ltac:(apply Rmult_lt_0_compat; lra)) as Q. rewrite ln_mult in Q by lra. lra. }
  assert (M : Rabs (b * ln X) <= a / 2 * X + B * Rabs (- 1 - ln e)).
  { rewrite Rabs_mult, (Rabs_right (ln X)) by lra. apply Rle_trans with (B * (e * X + Rabs (- 1 - ln e))).
    - apply Rmult_le_compat; [apply Rabs_pos|exact L0|unfold B; lra|]. pose proof (Rle_abs (- 1 - ln e)). lra.
    - rewrite Rmult_plus_distr_l. apply Rplus_le_compat_r. right. unfold e. field. lra. }
  assert (KA : a / 2 * K = C + B * Rabs (- 1 - ln e) + 2) by (unfold K; field; lra).
  assert (KX : a / 2 * K < a / 2 * X) by (apply Rmult_lt_compat_l; lra).
  assert (CC : C < C + 1) by lra. assert (H' := Rabs_def2 _ (C + 1) (Rle_lt_trans _ _ _ H CC)).
  assert (Q : Rabs (b * ln X) < a / 2 * X + B * Rabs (- 1 - ln e) + 1/2) by lra. apply Rabs_def2 in Q.
  clear -H' Q KA KX. set (Z1 := a / 2 * X) in *. replace (a * X) with (Z1 + Z1) in H' by (unfold Z1; field). lra.
Qed.
Lemma eventually_down f b : grows f 0 0 b -> b < 0 -> exists N, (1 <= N)%nat /\ forall n, (N <= n)%nat -> f n < 0.
Proof.
  intros [C HC] Hb. set (K := exp ((C + 1) / - b)). destruct (archimed K) as [K1 _]. exists (S (Z.to_nat (up K))). split; [lia|]. intros n Hn. assert (Hn1 : (1 <= n)%nat) by lia. pose proof (HC n Hn1) as H.
  assert (XK : K < INR n). { apply Rlt_le_trans with (IZR (up K)); [exact K1|]. rewrite INR_IZR_INZ. apply IZR_le. lia. }
  assert (L : (C + 1) / - b < ln (INR n)). { apply exp_lt_inv. rewrite exp_ln; [exact XK|]. apply Rlt_trans with K; [apply exp_pos|exact XK]. }
  assert (M : C + 1 < - b * ln (INR n)). { apply Rmult_lt_compat_l with (r := - b) in L; [|lra]. replace (- b * ((C + 1) / - b)) with (C + 1) in L by (field; lra). exact L. }
  pose proof (Rle_abs (f n - (0 * (INR n * ln (INR n)) + 0 * INR n + b * ln (INR n)))) as A. lra.
Qed.
