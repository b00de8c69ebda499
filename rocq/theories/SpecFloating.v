(** Specification vocabulary: accuracy of the float64 parameter estimation (C69). *)
From Flocq Require Import Core BinarySingleNaN.
From Coq Require Import Reals.
From Verif Require Import Base ModelCims ModelData ModelFamScore ModelFloating ModelGraph SpecComb SpecParams SpecData.
Open Scope nat_scope.

(** the float64 time column of a trajectory: finite numbers, exactly the clock readings of [r] *)
Definition read_as (ts : list f64) (r : raw) : Prop :=
  Forall2 (fun (x : f64) o => is_finite x = true /\ B2R x = Qc2R (fst o)) ts r.
(** the clock never runs backwards *)
Definition clock_ok (r : raw) : Prop := forall ab, In ab (steps r) -> (fst (fst ab) <= fst (snd ab))%Qc.
(** number of rows of the imported data *)
Definition observed_steps (rs : list raw) : nat := length (flat_map steps rs).

(** the float64 number [x] is finite and its relative distance from [y] is at most k * 2^-52 *)
Definition within (k : nat) (x : f64) (y : R) : Prop :=
  is_finite x = true /\ (Rabs (B2R x - y) <= INR k / 2 ^ 52 * Rabs y)%R.

(** number of jumps out of state [x] in configuration [u], or of jumps from [x] to [x'] *)
Definition true_count (rs : list raw) (ni : nat) (pis : list nat) (c : nat) (u : list nat) (x x' : nat) : Z :=
  if x' =? x then Zsum (map (fun y => if y =? x then 0%Z else raw_jumps rs ni y (ni :: pis) (x :: u)) (seq 0 c))
  else raw_jumps rs ni x' (ni :: pis) (x :: u).
(** the smoothed intensity (1 + M) / (1 + T) off the diagonal, (1 - M) / (1 + T) on it, as a real number *)
Definition true_intensity (rs : list raw) (ni : nat) (pis : list nat) (c : nat) (u : list nat) (x x' : nat) : R :=
  ((if x' =? x then 1 - IZR (true_count rs ni pis c u x x') else 1 + IZR (true_count rs ni pis c u x x'))
   / (1 + Qc2R (raw_dwell rs (ni :: pis) (x :: u))))%R.

(** the largest flat index of a node with [c] states and parents with [ps] states, times [c], is at most 2^53 *)
Definition index_fits (c : nat) (ps : list nat) : Prop := (Z.of_nat (nat_prod (c :: c :: c :: ps)) <= 2 ^ 53)%Z.
