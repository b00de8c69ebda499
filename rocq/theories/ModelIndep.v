(** Model of the statistical tests of independence_test,
    PyCTBN/PyCTBN/estimators/structure_constraint_based_estimator.py:145-172, over the reals extended with
    the IEEE special values (rounding is not modelled).  Signed zeros are not modelled: every divisor
    of the code that can be zero (a count, a sum of counts, the diagonal (1 - m)/(t + 1) of a CIM, which
    is computed as 0/(t+1)) is a positive zero. *)
From Coq Require Import Reals Qreals.
From Verif Require Import Base ModelStructure ModelGraph ModelCims ModelData ModelParams ModelCtpc ModelFamScore.
Open Scope nat_scope.

Inductive xr := Fin (x : R) | PInf | NInf | NaN.

(** numpy float64 arithmetic (warnings only, no exceptions) *)
Definition xneg (a : xr) : xr := match a with Fin x => Fin (- x) | PInf => NInf | NInf => PInf | NaN => NaN end.
Definition xadd (a b : xr) : xr :=
  match a, b with
  | Fin x, Fin y => Fin (x + y)
  | NaN, _ | _, NaN => NaN
  | PInf, NInf | NInf, PInf => NaN
  | PInf, _ | _, PInf => PInf
  | NInf, _ | _, NInf => NInf
  end.
Definition xsub (a b : xr) : xr := xadd a (xneg b).
(** infinity of the sign of [x], nan for 0 *)
Definition inf_of_sign (x : R) : xr := if Rlt_dec 0 x then PInf else if Rlt_dec x 0 then NInf else NaN.
Definition xmul (a b : xr) : xr :=
  match a, b with
  | Fin x, Fin y => Fin (x * y)
  | NaN, _ | _, NaN => NaN
  | Fin x, PInf | PInf, Fin x => inf_of_sign x
  | Fin x, NInf | NInf, Fin x => inf_of_sign (- x)
  | PInf, PInf | NInf, NInf => PInf
  | PInf, NInf | NInf, PInf => NInf
  end.
Definition xdiv (a b : xr) : xr :=
  match a, b with
  | NaN, _ | _, NaN => NaN
  | Fin x, Fin y => if Req_EM_T y 0 then inf_of_sign x else Fin (x / y)
  | Fin _, _ => Fin 0
  | PInf, Fin y => if Rlt_dec y 0 then NInf else PInf
  | NInf, Fin y => if Rlt_dec y 0 then PInf else NInf
  | _, _ => NaN
  end.
Definition xsqrt (a : xr) : xr :=
  match a with Fin x => if Rle_dec 0 x then Fin (sqrt x) else NaN | PInf => PInf | _ => NaN end.
(** np.power(x, 2) *)
Definition xsquare (a : xr) : xr := xmul a a.
Definition xsum (l : list xr) : xr := fold_right xadd (Fin 0) l.
(** comparisons are False when an operand is nan *)
Definition xlt (a b : xr) : bool :=
  match a, b with
  | Fin x, Fin y => if Rlt_dec x y then true else false
  | NInf, Fin _ | NInf, PInf | Fin _, PInf => true
  | _, _ => false
  end.
Definition xgt (a b : xr) : bool := xlt b a.

Definition xZ (z : Z) : xr := Fin (IZR z).

(** What the tests depend on besides the CIMs: the significance levels _exp_test_sign and _chi_test_alfa and
    scipy's quantile functions f_dist.ppf(q, dfn, dfd), chi2_dist.ppf(q, df). *)
Record test_params := MkTests {
  exp_alpha : R;
  chi_alpha : R;
  f_ppf : R -> Z -> Z -> xr;
  chi2_ppf : R -> nat -> xr }.

(** m[i, i] *)
Definition diag_entry {A} (m : list (list A)) (i : nat) : result A := let* row := nth_res m i in nth_res row i.

(** row [i] of M[~np.eye(n, dtype=bool)].reshape(n, -1), lines 161-163: the row without its diagonal entry *)
Definition row_no_diag {A} (m : list (list A)) (i : nat) : result (list A) :=
  let* row := nth_res m i in Ok (firstn i row ++ skipn (S i) row).

(** line 155: F_stats[val] *)
Definition F_stat (c1 c2 : cim) (val : nat) : result xr :=
  let* a := diag_entry (c_cim c2) val in
  let* b := diag_entry (c_cim c1) val in
  Ok (xdiv (Fin (Qc2R a)) (Fin (Qc2R b))).

(** lines 157-160: one round of the loop; true = no rejection *)
Definition exp_test_state (P : test_params) (c1 c2 : cim) (val : nat) : result bool :=
  let* f := F_stat c1 c2 val in
  let* r1 := diag_entry (c_trans c1) val in
  let* r2 := diag_entry (c_trans c2) val in
  Ok (negb (xlt f (f_ppf P (exp_alpha P / 2)%R r1 r2) || xgt f (f_ppf P (1 - exp_alpha P / 2)%R r1 r2))).

(** lines 165-166, 168-169: Ks[val], Ls[val] and Chi *)
Definition chi_stat (c1 c2 : cim) (val : nat) : result xr :=
  let* r1 := diag_entry (c_trans c1) val in
  let* r2 := diag_entry (c_trans c2) val in
  let* m1 := row_no_diag (c_trans c1) val in
  let* m2 := row_no_diag (c_trans c2) val in
  let K := xsqrt (xdiv (xZ r1) (xZ r2)) in
  let L := xsqrt (xdiv (xZ r2) (xZ r1)) in
  Ok (xsum (map (fun p => xdiv (xsquare (xsub (xmul K (xZ (snd p))) (xmul L (xZ (fst p)))))
                               (xadd (xZ (fst p)) (xZ (snd p)))) (combine m1 m2))).

(** lines 167-171: one round of the loop *)
Definition chi_test_state (P : test_params) (n : nat) (c1 c2 : cim) (val : nat) : result bool :=
  let* chi := chi_stat c1 c2 val in
  Ok (negb (xgt chi (chi2_ppf P (1 - chi_alpha P)%R (n - 1)))).

(** the loops return False at the first rejection *)
Fixpoint all_states (f : nat -> result bool) (vals : list nat) : result bool :=
  match vals with
  | [] => Ok true
  | v :: r => let* b := f v in if b then all_states f r else Ok false
  end.

(** lines 155-172 *)
Definition stat_tests (P : test_params) (n : nat) (c1 c2 : cim) : result bool :=
  let* b := all_states (exp_test_state P c1 c2) (seq 0 n) in
  if b then all_states (chi_test_state P n c1 c2) (seq 0 n) else Ok false.

(** the tests as used by the constraint-based estimator model; the error branch is unreachable for CIMs with
    [n] states (C27_tests_never_fail) *)
Definition the_tests (P : test_params) (n : nat) (c1 c2 : cim) : bool :=
  match stat_tests P n c1 c2 with Ok b => b | Err _ => false end.
