(** Specification vocabulary for the significance levels (C77). *)
From Coq Require Import Reals.
From Verif Require Import Base ModelIndep SpecIndep.
Open Scope nat_scope.

(** [P'] is [P] with lower (or equal) significance levels: the same quantile functions, which do not decrease *)
Definition lower_levels (P P' : test_params) : Prop :=
  (forall p r1 r2, f_ppf P' p r1 r2 = f_ppf P p r1 r2) /\ (forall p df, chi2_ppf P' p df = chi2_ppf P p df)
  /\ (exp_alpha P' <= exp_alpha P)%R /\ (chi_alpha P' <= chi_alpha P)%R
  /\ (forall p p' r1 r2 q q', (0 < p <= p')%R -> (p' < 1)%R -> f_ppf P p r1 r2 = Fin q -> f_ppf P p' r1 r2 = Fin q' -> (q <= q')%R)
  /\ (forall p p' df q q', (0 < p <= p')%R -> (p' < 1)%R -> chi2_ppf P p df = Fin q -> chi2_ppf P p' df = Fin q' -> (q <= q')%R).

(** the F test with [r1] and [r2] degrees of freedom accepts the ratio [f] *)
Definition f_accepts (P : test_params) (r1 r2 : Z) (f : R) : Prop :=
  between (f_ppf P (exp_alpha P / 2)%R r1 r2) f (f_ppf P (1 - exp_alpha P / 2)%R r1 r2).
