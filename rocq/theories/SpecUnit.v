(** Specification vocabulary for the unit of time (C74). *)
From Coq Require Import Reals.
From Verif Require Import Base ModelCims ModelFamScore ModelEstimators SpecConserve.
Open Scope nat_scope.

(** the two calls raise the same exception or return related values *)
Definition related {A B} (rel : A -> B -> Prop) (r : result A) (r' : result B) : Prop :=
  match r, r' with Ok a, Ok b => rel a b | Err x, Err y => x = y | _, _ => False end.

(** the two score-based estimations raise the same exception or return the same edges and print the same scores *)
Definition same_sb_outcome (r r' : result (list edge * printed * sb_estimator)) : Prop :=
  match r, r' with
  | Ok (es, pr, _), Ok (es', pr', _) => es = es' /\ pr = pr'
  | Err x, Err y => x = y
  | _, _ => False
  end.

(** as many rows of counts as residence times *)
Definition square (cm : cim) : Prop := length (c_trans cm) = length (c_times cm).
(** number of transitions recorded on the diagonals of the matrices *)
Definition all_jumps (cims : list cim) : Z := Zsum (map diagonal_counts cims).
