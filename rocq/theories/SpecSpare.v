(** Specification vocabulary for C98: declared states that never occur. *)
From Coq Require Import Reals.
From Verif Require Import Base ModelStructure ModelCims ModelData ModelIndep SpecData.
Open Scope nat_scope.

(** the variable in column [j] is never observed in state [d] (trajectories of a single observation do not count: they are ignored) *)
Definition never_observed (rs : list raw) (j d : nat) : Prop :=
  forall r o, In r rs -> 2 <= length r -> In o r -> nth_error (snd o) j <> Some (Z.of_nat d).

(** the same test of the exit rates: quantiles of the F distribution and their level; nothing about chi-square *)
Definition same_rate_test (P P' : test_params) : Prop :=
  exp_alpha P' = exp_alpha P /\ forall p r1 r2, f_ppf P' p r1 r2 = f_ppf P p r1 r2.

(** entry of a matrix given by its rows *)
Definition entry {A} (m : list (list A)) (x y : nat) : option A := match nth_error m x with Some row => nth_error row y | None => None end.

(** state [x] of the node with [k'] declared states in [cm'] compared with [cm], for which [k] are declared: the same time,
    counts and rates for the [k] states; no transition into the others, to which the rate is 1 / (T + 1) *)
Definition extended_state (k k' : nat) (cm cm' : cim) (x : nat) : Prop :=
  exists T, nth_error (c_times cm) x = Some T /\ nth_error (c_times cm') x = Some T
  /\ (forall y, y < k -> exists z q, entry (c_trans cm) x y = Some z /\ entry (c_trans cm') x y = Some z
        /\ entry (c_cim cm) x y = Some q /\ entry (c_cim cm') x y = Some q)
  /\ (forall y, k <= y < k' -> entry (c_trans cm') x y = Some 0%Z /\ entry (c_cim cm') x y = Some (1 / (T + 1))%Qc).
(** a state in which no time was spent and from which nothing happened: all entries of its row are 1 *)
Definition blank_state (k' : nat) (cm' : cim) (x : nat) : Prop :=
  nth_error (c_times cm') x = Some 0%Qc
  /\ forall y, y < k' -> entry (c_trans cm') x y = Some 0%Z /\ entry (c_cim cm') x y = Some 1%Qc.
