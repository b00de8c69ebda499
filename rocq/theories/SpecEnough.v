(** Specification vocabulary for C88: what a (large) data set says about one more parent. *)
From Verif Require Import Base ModelStructure ModelGraph ModelCims ModelData ModelParams SpecGraph SpecComb SpecParams SpecData SpecInvariance SpecBias.

(** the clock moves between two observations *)
Definition clock_strict (r : raw) : Prop := forall ab, In ab (steps r) -> (fst (fst ab) < fst (snd ab))%Qc.
(** the column of a variable *)
Fixpoint column (vars : list label) (l : label) : nat :=
  match vars with [] => 0 | x :: r => if String.eqb x l then 0 else S (column r l) end.
Section data.
Variables (vars : list label) (rs : list raw) (v : label).
(** time spent by [v] in state [x] while every variable [l] of [K] is in state [a l] *)
Definition time_given (K : list label) (a : label -> nat) (x : nat) : Qc := raw_dwell rs (map (column vars) (v :: K)) (x :: map a K).
(** number of its transitions from [x] to [y] meanwhile, and their rate *)
Definition changes_given (K : list label) (a : label -> nat) (x y : nat) : Z := raw_jumps rs (column vars v) y (map (column vars) (v :: K)) (x :: map a K).
Definition rate_given (K : list label) (a : label -> nat) (x y : nat) : Qc := (Qc_of_Z (changes_given K a x y) / time_given K a x)%Qc.
(** two situations that differ only in the state of [p], both observed *)
Definition comparable (K : list label) (p : label) (a b : label -> nat) (x : nat) : Prop :=
  (forall l, In l K -> a l = b l) /\ a p <> b p /\ (0 < time_given (p :: K) a x)%Qc /\ (0 < time_given (p :: K) b x)%Qc.
(** given the states of [K], some observed rate of [v] changes with the state of [p] *)
Definition depends (K : list label) (p : label) : Prop :=
  exists a b x y, comparable K p a b x /\ x <> y /\ rate_given (p :: K) a x y <> rate_given (p :: K) b x y.
(** given the states of [K] and of [v], more than one state of [p] is observed *)
Definition varies (K : list label) (p : label) : Prop := exists a b x, comparable K p a b x.
End data.
From Verif Require Import ModelCtpc ModelEstimators.
(** a tabu search that looks at every candidate before it gives up: at most [c] candidates, no limit on the number of parents,
    default (or large enough) tabu_length, tabu_rules_duration and patience, enough iterations *)
Definition thorough (c : nat) (p : sb_params) : Prop :=
  sp_optimizer p = "tabu"%string /\ sp_max_parents p = None /\ (forall x, sp_tabu_length p = Some x -> c <= x) /\ (forall x, sp_tabu_duration p = Some x -> c <= x)
  /\ (forall x, sp_patience p = Some x -> c <= S x) /\ c * 2 ^ c <= sp_iterations p.
(** [Pa] are the parents of [v] according to the data: as long as some of them are missing, one of these makes a difference, and
    once they are all there nothing else does (although it is seen in several states) *)
Definition parents_in_data (vars : list label) (rs : list raw) (v : label) (Pa : list label) : Prop :=
  incl Pa vars /\ ~ In v Pa
  /\ (forall K q, incl K vars -> ~ In v K -> In q Pa -> ~ In q K -> exists p, In p Pa /\ ~ In p K /\ depends vars rs v K p)
  /\ (forall K p, incl K vars -> ~ In v K -> incl Pa K -> In p vars -> p <> v -> ~ In p K -> ~ depends vars rs v K p /\ varies vars rs v K p).
