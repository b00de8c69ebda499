(** Accumulated rounding errors: sums of durations and quotients (C69). *)
From Flocq Require Import Core BinarySingleNaN.
From Coq Require Import Reals Lra Psatz.
From Verif Require Import Base ModelParams ModelFloating ProofFloating.
Open Scope R_scope.

(** [x] is [y] up to [k] roundings *)
Definition close (k : nat) (x y : R) : Prop := exists r, x = y * r /\ / (1 + u) ^ k <= r <= (1 + u) ^ k.
Lemma pow_u_ge k : 1 <= (1 + u) ^ k. Proof. apply pow_R1_Rle. pose proof u_pos. lra. Qed.
Lemma pow_u_pos k : 0 < (1 + u) ^ k. Proof. pose proof (pow_u_ge k). lra. Qed.
Lemma pow_u_le k : 2 * INR k * u <= 1 -> (1 + u) ^ k <= 1 + 2 * INR k * u.
Proof.
  pose proof u_pos. induction k as [|k IH]; intros H1; [cbn; lra|].
  rewrite S_INR in H1 |- *. cbn [pow]. assert (H2 : 2 * INR k * u <= 1) by nra. specialize (IH H2).
  apply Rle_trans with ((1 + u) * (1 + 2 * INR k * u)); [apply Rmult_le_compat_l; lra|]. nra.
Qed.
Lemma close_refl x : close 0 x x. Proof. exists 1. cbn. split; [ring|]. rewrite Rinv_1. lra. Qed.
Lemma close_0 k : close k 0 0.
Proof. exists 1. split; [ring|]. pose proof (pow_u_ge k). split; [|assumption]. rewrite <- Rinv_1 at 2. apply Rinv_le; lra. Qed.
Lemma close_mono k k' x y : (k <= k')%nat -> close k x y -> close k' x y.
Proof.
  intros Hk [r [E [L U]]]. exists r. split; [exact E|]. assert (P : (1 + u) ^ k <= (1 + u) ^ k') by (apply Rle_pow; [pose proof u_pos; lra|exact Hk]).
  split; [|lra]. apply Rle_trans with (/ (1 + u) ^ k); [|exact L]. apply Rinv_le; [apply pow_u_pos|exact P].
Qed.
Lemma close_round k x y e : close k x y -> factor e -> close (S k) (x * (1 + e)) y.
Proof.
  intros [r [E [L U]]] [L' U']. exists (r * (1 + e)). split; [rewrite E; ring|]. cbn [pow]. pose proof (pow_u_pos k). pose proof u_pos.
  assert (0 < / (1 + u) ^ k) by (apply Rinv_0_lt_compat; assumption). assert (0 < / (1 + u)) by (apply Rinv_0_lt_compat; lra).
  rewrite Rinv_mult. split; [|rewrite (Rmult_comm (1 + u)); apply Rmult_le_compat; lra]. rewrite Rmult_comm. apply Rmult_le_compat; lra.
Qed.
Lemma close_add k x1 y1 x2 y2 : 0 <= y1 -> 0 <= y2 -> close k x1 y1 -> close k x2 y2 -> close k (x1 + x2) (y1 + y2).
Proof.
  intros P1 P2 [r1 [E1 [L1 U1]]] [r2 [E2 [L2 U2]]].
  destruct (Req_dec (y1 + y2) 0) as [Z|Z].
  - assert (y1 = 0) by lra. assert (y2 = 0) by lra. subst. rewrite !Rmult_0_l, Rplus_0_l. apply close_0.
  - exists ((x1 + x2) / (y1 + y2)). split; [field; exact Z|]. assert (P : 0 < y1 + y2) by lra. subst x1 x2. set (lo := / (1 + u) ^ k) in *. set (hi := (1 + u) ^ k) in *.
    split; apply Rmult_le_reg_r with (y1 + y2); try exact P; unfold Rdiv; rewrite Rmult_assoc, Rinv_l, Rmult_1_r by exact Z; nra.
Qed.
Lemma close_le k x y : 2 * INR k * u <= 1 -> 0 <= y -> close k x y -> 0 <= x <= 2 * y.
Proof.
  intros Hk Py [r [E [L U]]]. pose proof (pow_u_le k Hk). assert (0 < / (1 + u) ^ k) by (apply Rinv_0_lt_compat, pow_u_pos). subst x. split; nra.
Qed.
Lemma close_ge k x y : 2 * INR k * u <= 1 -> 0 <= y -> close k x y -> y / 2 <= x.
Proof.
  intros Hk Py [r [E [L U]]]. pose proof (pow_u_le k Hk) as H. assert (/ 2 <= / (1 + u) ^ k) by (apply Rinv_le; [apply pow_u_pos|lra]). subst x. nra.
Qed.
Lemma close_error k x y : 2 * INR k * u <= 1 -> close k x y -> Rabs (x - y) <= 2 * INR k * u * Rabs y.
Proof.
  intros Hk [r [E [L U]]]. pose proof (pow_u_le k Hk) as H. subst x. replace (y * r - y) with ((r - 1) * y) by ring. rewrite Rabs_mult. apply Rmult_le_compat_r; [apply Rabs_pos|].
  apply Rabs_le. split; [|lra]. assert (1 - 2 * INR k * u <= / (1 + u) ^ k); [|lra].
  assert (Q : 0 <= 2 * INR k * u) by (pose proof u_pos; pose proof (pos_INR k); nra).
  apply Rle_trans with (/ (1 + 2 * INR k * u)); [|apply Rinv_le; [apply pow_u_pos|exact H]].
  apply Rmult_le_reg_r with (1 + 2 * INR k * u); [lra|]. rewrite Rinv_l by lra. nra.
Qed.
Lemma close_div k n x y : 0 < y -> close k x y -> close k (n / x) (n / y).
Proof.
  intros Py [r [E [L U]]]. assert (Lp : 0 < / (1 + u) ^ k) by (apply Rinv_0_lt_compat, pow_u_pos). assert (Pr : 0 < r) by lra.
  exists (/ r). split; [subst x; field; split; lra|]. split; [apply Rinv_le; assumption|].
  rewrite <- (Rinv_inv ((1 + u) ^ k)). apply Rinv_le; assumption.
Qed.

(** ** a float that is close to a nonnegative exact value *)
Definition fclose (k : nat) (x : f64) (y : R) : Prop := is_finite x = true /\ close k (B2R x) y.
Lemma bpow_nat_le a b : (a <= b)%Z -> B a <= B b. Proof. apply bpow_le. Qed.
Lemma B_S n : B (n + 1) = 2 * B n. Proof. rewrite bpow_plus. change (B 1) with 2. ring. Qed.

Lemma fclose_add k x1 y1 x2 y2 : 2 * INR k * u <= 1 -> 0 <= y1 -> 0 <= y2 -> y1 + y2 <= B 1010 ->
  fclose k x1 y1 -> fclose k x2 y2 -> fclose (S k) (fadd x1 x2) (y1 + y2).
Proof.
  intros Hk P1 P2 Hb [F1 C1] [F2 C2]. pose proof (close_le k _ _ Hk P1 C1) as L1. pose proof (close_le k _ _ Hk P2 C2) as L2.
  assert (Bd : Rabs (B2R x1 + B2R x2) <= B 1011) by (change 1011%Z with (1010 + 1)%Z; rewrite B_S; rewrite Rabs_pos_eq; lra).
  destruct (fadd_ok x1 x2 1011 F1 F2 Bd ltac:(lia) ltac:(lia)) as [F [_ [e [Fe E]]]]. split; [exact F|]. rewrite E. apply close_round; [apply close_add; assumption|exact Fe].
Qed.
Lemma fclose_mono k k' x y : (k <= k')%nat -> fclose k x y -> fclose k' x y.
Proof. intros H [F C]. split; [exact F|eapply close_mono; eassumption]. Qed.
Lemma fzero_close : fclose 0 f_zero 0.
Proof. destruct (f_of_Z_ok 0 ltac:(lia)) as [F E]. split; [exact F|]. unfold f_zero. rewrite E. apply close_refl. Qed.
Lemma fone_close : fclose 0 f_one 1.
Proof. destruct (f_of_Z_ok 1 ltac:(lia)) as [F E]. split; [exact F|]. unfold f_one. rewrite E. apply close_refl. Qed.

Definition Rtotal (l : list R) : R := fold_right Rplus 0 l.
Lemma Rtotal_pos l : Forall (fun y => 0 <= y) l -> 0 <= Rtotal l.
Proof. unfold Rtotal. induction 1; cbn [fold_right]; lra. Qed.
Lemma f_sum_close xs ys : Forall2 (fclose 1) xs ys -> Forall (fun y => 0 <= y) ys -> forall k acc a, (1 <= k)%nat -> fclose k acc a -> 0 <= a ->
  a + Rtotal ys <= B 1010 -> 2 * INR (k + length xs) * u <= 1 -> fclose (k + length xs) (fold_left fadd xs acc) (a + Rtotal ys).
Proof.
  induction 1 as [|x y xs ys Hx H IH]; intros Pys k acc a Hk Ha Pa Hb Hu.
  - cbn. rewrite Rplus_0_r, Nat.add_0_r. exact Ha.
  - inversion Pys as [|? ? Py Pys']; subst. pose proof (Rtotal_pos ys Pys') as Pt. change (Rtotal (y :: ys)) with (y + Rtotal ys) in *. cbn [fold_left length] in *.
    assert (Hku : 2 * INR k * u <= 1).
    { apply Rle_trans with (2 * INR (k + S (length xs)) * u); [|exact Hu]. apply Rmult_le_compat_r; [pose proof u_pos; lra|]. apply Rmult_le_compat_l; [lra|]. apply le_INR. lia. }
    replace (k + S (length xs))%nat with (S k + length xs)%nat by lia. replace (a + (y + Rtotal ys)) with (a + y + Rtotal ys) by ring.
    apply IH; [exact Pys'|lia| |lra|lra|replace (S k + length xs)%nat with (k + S (length xs))%nat by lia; exact Hu].
    apply fclose_add; [exact Hku|exact Pa|exact Py|lra|exact Ha|apply fclose_mono with 1%nat; [exact Hk|exact Hx]].
Qed.
(** the sum of [n] numbers, each within one rounding of its exact value *)
Lemma f_sum_spec xs ys : Forall2 (fclose 1) xs ys -> Forall (fun y => 0 <= y) ys -> Rtotal ys <= B 1010 -> 2 * INR (length xs + 1) * u <= 1 ->
  fclose (length xs + 1) (f_sum xs) (Rtotal ys).
Proof.
  intros H P Hb Hu. unfold f_sum. rewrite Nat.add_comm in *. rewrite <- (Rplus_0_l (Rtotal ys)).
  apply f_sum_close; try assumption; [lia|apply fclose_mono with 0%nat; [lia|apply fzero_close]|lra|lra].
Qed.

(** a difference of two exact clock readings *)
Lemma fsub_close (x y : f64) : is_finite x = true -> is_finite y = true -> 0 <= B2R x - B2R y <= B 1010 -> fclose 1 (fsub x y) (B2R x - B2R y).
Proof.
  intros Fx Fy [P H]. destruct (fsub_ok x y 1010 Fx Fy ltac:(rewrite Rabs_pos_eq; lra) ltac:(lia) ltac:(lia)) as [F [e [Fe E]]].
  split; [exact F|]. rewrite E. apply close_round; [apply close_refl|exact Fe].
Qed.

(** one coefficient: an integer numerator, a residence time in the denominator *)
Lemma coefficient_close k x T (a : f64) z : is_finite a = true -> B2R a = IZR z -> (Z.abs (z + 1) <= 2 ^ 53)%Z ->
  2 * INR (S k) * u <= 1 -> 0 <= T <= B 1000 -> fclose k x T ->
  fclose (S (S k)) (fdiv (fadd a f_one) (fadd x f_one)) (IZR (z + 1) / (T + 1)).
Proof.
  intros Fa Ea Hz Hk [PT HT] Hx.
  destruct (f_of_Z_ok 1 ltac:(lia)) as [F1 E1]. destruct (fadd_int a f_one z 1 Fa F1 Ea E1 Hz) as [Fn En].
  assert (Hk' : 2 * INR k * u <= 1). { apply Rle_trans with (2 * INR (S k) * u); [|exact Hk]. apply Rmult_le_compat_r; [pose proof u_pos; lra|]. apply Rmult_le_compat_l; [lra|]. apply le_INR. lia. }
  assert (B1000 : B 1000 + 1 <= B 1001) by (change 1001%Z with (1000 + 1)%Z; rewrite B_S; assert (1 <= B 1000) by (change 1 with (B 0); apply bpow_le; lia); lra).
  assert (Hd : fclose (S k) (fadd x f_one) (T + 1)).
  { apply fclose_add; [exact Hk'|exact PT|lra| |exact Hx|apply fclose_mono with 0%nat; [lia|apply fone_close]].
    apply Rle_trans with (B 1001); [lra|]. apply bpow_le. lia. }
  destruct Hd as [Fd Cd]. pose proof (close_le (S k) _ (T + 1) Hk ltac:(lra) Cd) as Ld. pose proof (close_ge (S k) _ (T + 1) Hk ltac:(lra) Cd) as Gd.
  set (d := fadd x f_one) in *. set (n := fadd a f_one) in *.
  assert (Pd : / 2 <= B2R d) by lra. assert (Ud : B2R d <= B 1002) by (change 1002%Z with (1001 + 1)%Z; rewrite B_S; lra).
  assert (Nd : B2R d <> 0) by lra.
  assert (Up : Rabs (B2R n / B2R d) <= B 54).
  { unfold Rdiv. rewrite Rabs_mult, (Rabs_pos_eq (/ B2R d)) by (apply Rlt_le, Rinv_0_lt_compat; lra). rewrite En. change 54%Z with (53 + 1)%Z. rewrite B_S, Rmult_comm.
    apply Rmult_le_compat; [apply Rlt_le, Rinv_0_lt_compat; lra|apply Rabs_pos| |apply int_abs; [lia|exact Hz]].
    apply Rle_trans with (/ / 2); [apply Rinv_le; lra|rewrite Rinv_inv; lra]. }
  destruct (fdiv_ok n d 54 Fn Nd Up ltac:(lia) ltac:(lia)) as [F [_ [e [Fe E]]]].
  - destruct (Z.eq_dec (z + 1) 0) as [Z0|Z0]; [left; rewrite En, Z0; reflexivity|right].
    unfold Rdiv. rewrite Rabs_mult, (Rabs_pos_eq (/ B2R d)) by (apply Rlt_le, Rinv_0_lt_compat; lra). rewrite En, <- abs_IZR.
    assert (1 <= IZR (Z.abs (z + 1))) by (apply IZR_le; lia).
    assert (Lo : B (-1022) <= / B2R d). { apply Rle_trans with (/ B 1002); [rewrite <- bpow_opp; apply bpow_le; lia|]. apply Rinv_le; lra. }
    pose proof (bpow_gt_0 radix2 (-1022)). nra.
  - split; [exact F|]. rewrite E. apply close_round; [|exact Fe]. rewrite En. apply close_div; [lra|exact Cd].
Qed.
