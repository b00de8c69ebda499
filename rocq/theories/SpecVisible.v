(** Specification vocabulary for C90: what the tests of the constraint-based estimator can see, however much data there are. *)
From Verif Require Import Base ModelStructure ModelGraph ModelCims ModelData ModelParams SpecData SpecInvariance SpecEnough.

Section data.
Variables (vars : list label) (k : nat) (rs : list raw) (v : label).
(** the rate at which [v] leaves state [x] while every variable [l] of [K] is in state [a l] *)
Definition exits_given (K : list label) (a : label -> nat) (x : nat) : Z :=
  Zsum (map (changes_given vars rs v K a x) (filter (fun y => negb (y =? x)) (seq 0 k))).
Definition leave_rate (K : list label) (a : label -> nat) (x : nat) : Qc :=
  (Qc_of_Z (exits_given K a x) / time_given vars rs v K a x)%Qc.
(** every other state is reached from [x] at least once meanwhile *)
Definition all_targets (K : list label) (a : label -> nat) (x : nat) : Prop :=
  forall y, y < k -> y <> x -> (0 < changes_given vars rs v K a x y)%Z.
(** given [K], the state of [p] makes a difference that the tests can see: [v] leaves some state faster or slower, or it leaves a
    state from which (given [K]) all other states are reached, for other states in other proportions *)
Definition visible (K : list label) (p : label) : Prop :=
  exists a b x, comparable vars rs v K p a b x
    /\ (leave_rate (p :: K) a x <> leave_rate (p :: K) b x
        \/ all_targets K a x /\ exists y, x <> y /\ rate_given vars rs v (p :: K) a x y <> rate_given vars rs v (p :: K) b x y).
(** [v] never changes while [K] is in some combination of states *)
Definition silent (K : list label) : Prop :=
  exists a, (forall l, a l < k) /\ forall x y, x < k -> y < k -> x <> y -> changes_given vars rs v K a x y = 0%Z.
End data.
