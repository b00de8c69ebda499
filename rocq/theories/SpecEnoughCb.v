(** Specification vocabulary for C89: what the constraint-based estimator learns from enough data. *)
From Coq Require Import Reals.
From Verif Require Import Base ModelStructure ModelGraph ModelCims ModelData ModelParams ModelFamScore ModelIndep SpecData SpecInvariance SpecIndep SpecEnough.
Close Scope R_scope. Open Scope nat_scope.

(** what is assumed of scipy's F distribution besides [quantiles_ok]: as both numbers of degrees of freedom grow in proportion, its
    quantiles at the levels alpha/2 and 1 - alpha/2 tend to 1 from below and from above, more slowly than 1/n *)
Definition quantiles_settle (P : test_params) : Prop :=
  forall m1 m2 (eps c : R), 0 < m1 -> 0 < m2 -> (0 < eps)%R -> exists n0, forall n, n0 <= n -> exists lo hi,
    f_ppf P (exp_alpha P / 2)%R (Z.of_nat (n * m1)) (Z.of_nat (n * m2)) = Fin lo
    /\ f_ppf P (1 - exp_alpha P / 2)%R (Z.of_nat (n * m1)) (Z.of_nat (n * m2)) = Fin hi
    /\ (1 - eps < lo <= 1 - c / INR n)%R /\ (1 + c / INR n <= hi < 1 + eps)%R.

(** every transition of [v] is seen at least once for every combination of states of the other variables *)
Definition every_change_seen (vars : list label) (k : nat) (rs : list raw) (v : label) : Prop :=
  forall (a : label -> nat) x y, (forall l, a l < k) -> x < k -> y < k -> x <> y ->
    (0 < changes_given vars rs v (filter (fun l => negb (String.eqb l v)) vars) a x y)%Z.

(** [Pa] are the parents of [v] according to the data, in the sense the constraint-based algorithm needs: each of them makes a
    difference whatever else is known, and nothing else does once all of them are known *)
Definition faithful_data (vars : list label) (rs : list raw) (v : label) (Pa : list label) : Prop :=
  incl Pa vars /\ ~ In v Pa
  /\ (forall K p, incl K vars -> ~ In v K -> In p Pa -> ~ In p K -> depends vars rs v K p)
  /\ (forall q, In q vars -> q <> v -> ~ In q Pa -> ~ depends vars rs v Pa q).
