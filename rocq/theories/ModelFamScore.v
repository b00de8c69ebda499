(** Model of PyCTBN/PyCTBN/estimators/fam_score_calculator.py over the real numbers (the code uses
    float64; rounding is not modelled).  [lg] is scipy.special.loggamma on positive arguments; for
    non-positive hyper-parameters it is nan or infinite in the code, so the theorems require positive ones. *)
From Coq Require Import Reals Qreals.
From Verif Require Import Base ModelCims.
Open Scope nat_scope.

(** float64 value of an exact rational *)
Definition Qc2R (q : Qc) : R := Q2R (this q).

(** math.log: ValueError for a non-positive argument *)
Definition py_log (x : R) : result R := if Rlt_dec 0 x then Ok (ln x) else Err ValueError.

(** np.sum of a list of floats *)
Definition Rsum (l : list R) : R := fold_right Rplus 0%R l.

Section Fam.
Variable lg : R -> R.

(** fam_score_calculator.py:128-141 *)
Definition single_internal_cim_xxu_marginal_likelihood_theta (m : Z) (alpha_xxu : R) : R :=
  (lg (alpha_xxu + IZR m) - lg alpha_xxu)%R.

(** fam_score_calculator.py:92-125 *)
Definition single_cim_xu_marginal_likelihood_theta (index : nat) (c : cim) (alpha_xu alpha_xxu : R) : result R :=
  let* values := py_remove Nat.eqb index (seq 0 (length (c_times c))) in
  let* row := nth_res (c_trans c) index in
  let* m := nth_res row index in
  let* internal := res_map (fun j => let* mj := nth_res row j in
                     Ok (single_internal_cim_xxu_marginal_likelihood_theta mj alpha_xxu)) values in
  Ok ((lg alpha_xu - lg (alpha_xu + IZR m)) + Rsum internal)%R.

(** fam_score_calculator.py:62-90, 39-60 *)
Definition variable_cim_xu_marginal_likelihood_theta (c : cim) (alpha_xu alpha_xxu : R) : result R :=
  let* l := res_map (fun i => single_cim_xu_marginal_likelihood_theta i c alpha_xu alpha_xxu)
                    (seq 0 (length (c_times c))) in
  Ok (Rsum l).
Definition marginal_likelihood_theta (cims : list cim) (alpha_xu alpha_xxu : R) : result R :=
  let* l := res_map (fun c => variable_cim_xu_marginal_likelihood_theta c alpha_xu alpha_xxu) cims in
  Ok (Rsum l).

(** fam_score_calculator.py:200-235 *)
Definition single_cim_xu_marginal_likelihood_q (m : Z) (t : Qc) (tau_xu alpha_xu : R) : result R :=
  let* log_tau := py_log tau_xu in
  let* log_tau_t := py_log (tau_xu + Qc2R t)%R in
  Ok ((lg (alpha_xu + IZR m + 1) + log_tau * (alpha_xu + 1))
      - (lg (alpha_xu + 1) + log_tau_t * (alpha_xu + IZR m + 1)))%R.

(** fam_score_calculator.py:168-197, 147-166 *)
Definition variable_cim_xu_marginal_likelihood_q (c : cim) (tau_xu alpha_xu : R) : result R :=
  let* l := res_map (fun i => let* row := nth_res (c_trans c) i in
                              let* m := nth_res row i in
                              let* t := nth_res (c_times c) i in
                              single_cim_xu_marginal_likelihood_q m t tau_xu alpha_xu)
                    (seq 0 (length (c_times c))) in
  Ok (Rsum l).
Definition marginal_likelihood_q (cims : list cim) (tau_xu alpha_xu : R) : result R :=
  let* l := res_map (fun c => variable_cim_xu_marginal_likelihood_q c tau_xu alpha_xu) cims in
  Ok (Rsum l).

(** fam_score_calculator.py:239-268; cims[0] raises IndexError on an empty array, the division by
    len(...) - 1 is a Python division (of a number of states that is at least 1) *)
Definition get_fam_score (cims : list cim) (tau_xu alpha_xu : R) : result R :=
  let* c0 := nth_res cims 0 in
  if length (c_times c0) =? 1 then Err ZeroDivisionError
  else
    let alpha_xxu := (alpha_xu / (INR (length (c_times c0)) - 1))%R in
    let* q := marginal_likelihood_q cims tau_xu alpha_xu in
    let* theta := marginal_likelihood_theta cims alpha_xu alpha_xxu in
    Ok (q + theta)%R.
End Fam.

(** [>] on floats (no nan arises for positive hyper-parameters) *)
Definition score_gt (a b : R) : bool := if Rgt_dec a b then true else false.
