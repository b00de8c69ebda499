(** Specification vocabulary for the statistical tests (C27, C58-C61). *)
From Coq Require Import Reals Qreals.
From Verif Require Import Base ModelCims ModelFamScore ModelIndep SpecFamScore.
Open Scope nat_scope.

(** number of transitions from [x] to [j] of a CIM object; the diagonal entry is the number of transitions
    out of [x] *)
Definition jumps_of (c : cim) (x j : nat) : Z := nth j (nth x (c_trans c) []) 0%Z.
Definition exits (c : cim) (x : nat) : Z := jumps_of c x x.
Definition time_in (c : cim) (x : nat) : R := Qc2R (nth x (c_times c) 0%Qc).
(** the destinations other than [x] *)
Definition other_states (n x : nat) : list nat := filter (fun j => negb (j =? x)) (seq 0 n).
Definition jump_row (n : nat) (c : cim) (x : nat) : list R := map (fun j => IZR (jumps_of c x j)) (other_states n x).

(** Pearson's chi-square statistic of the contingency table with the two rows [a] and [b]: the sum of
    (observed - expected)^2 / expected, expected = row total * column total / grand total *)
Definition pearson_cell (total row_total obs col_total : R) : R :=
  let expected := (row_total * col_total / total)%R in ((obs - expected) ^ 2 / expected)%R.
Definition pearson (a b : list R) : R :=
  let N := (Rsum a + Rsum b)%R in
  Rsum (map (fun p => (pearson_cell N (Rsum a) (fst p) (fst p + snd p)
                       + pearson_cell N (Rsum b) (snd p) (fst p + snd p))%R) (combine a b)).

Definition proportional (a b : list R) : Prop :=
  Forall (fun p => Rsum b * fst p = Rsum a * snd p)%R (combine a b).

(** CIM objects as the estimator builds them: statistics of [n] states with computed coefficients *)
Definition computed_cim (n : nat) (c : cim) : Prop :=
  stats_ok n c /\ c_cim c = c_cim (compute_cim_coefficients (new_cim (c_times c) (c_trans c))).

(** what is assumed of scipy: quantiles at levels in (0,1) are positive reals for positive degrees of freedom,
    nan for 0 degrees of freedom *)
Definition quantiles_ok (P : test_params) : Prop :=
  (forall p r1 r2, (0 < p < 1)%R -> (0 < r1)%Z -> (0 < r2)%Z -> exists q, f_ppf P p r1 r2 = Fin q /\ (0 < q)%R)
  /\ (forall p r1 r2, r1 = 0%Z \/ r2 = 0%Z -> f_ppf P p r1 r2 = NaN)
  /\ (forall p df, (0 < p < 1)%R -> 0 < df -> exists q, chi2_ppf P p df = Fin q /\ (0 < q)%R)
  /\ (forall p, chi2_ppf P p 0 = NaN)
  /\ (0 < exp_alpha P < 1)%R /\ (0 < chi_alpha P < 1)%R.
(** the quantiles of F(r1, r2) and F(r2, r1) are reciprocal *)
Definition f_reciprocal (P : test_params) : Prop :=
  forall p r1 r2 q, (0 < p < 1)%R -> (0 < r1)%Z -> (0 < r2)%Z -> f_ppf P p r1 r2 = Fin q -> f_ppf P (1 - p)%R r2 r1 = Fin (/ q)%R.

(** [lo < F < hi] fails to reject *)
Definition between (lo : xr) (f : R) (hi : xr) : Prop :=
  (forall l, lo = Fin l -> (l <= f)%R) /\ (forall h, hi = Fin h -> (f <= h)%R).

(** a cell of the table that neither CIM has seen *)
Definition unseen_cell (n : nat) (c1 c2 : cim) (x : nat) : Prop :=
  exists j, j < n /\ j <> x /\ jumps_of c1 x j = 0%Z /\ jumps_of c2 x j = 0%Z.

(** the ratio of the two estimated exit rates, with the smoothing of the code: one transition too few, one
    time unit too many *)
Definition smoothed_ratio (c1 c2 : cim) (x : nat) : R :=
  (((IZR (exits c2 x) - 1) / (time_in c2 x + 1)) / ((IZR (exits c1 x) - 1) / (time_in c1 x + 1)))%R.

(** state [x] gives no reason to reject independence *)
Definition state_accepts (P : test_params) (n : nat) (c1 c2 : cim) (x : nat) : Prop :=
  exits c1 x = 0%Z \/ exits c2 x = 0%Z
  \/ (((exits c1 x = 1%Z /\ exits c2 x = 1%Z)
       \/ (2 <= exits c1 x /\ 2 <= exits c2 x
           /\ between (f_ppf P (exp_alpha P / 2)%R (exits c1 x) (exits c2 x)) (smoothed_ratio c1 c2 x)
                      (f_ppf P (1 - exp_alpha P / 2)%R (exits c1 x) (exits c2 x)))%Z)
      /\ (unseen_cell n c1 c2 x
          \/ forall q, chi2_ppf P (1 - chi_alpha P)%R (n - 1) = Fin q -> (pearson (jump_row n c1 x) (jump_row n c2 x) <= q)%R)).
