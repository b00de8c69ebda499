(** Specification vocabulary for C35, C36: the score is defined through what a Bayesian observer predicts,
    one visit at a time. *)
From Coq Require Import Reals Qreals.
From Verif Require Import Base ModelStructure ModelGraph ModelCims ModelData ModelFamScore SpecComb SpecParams.
Open Scope nat_scope.

(** log-gamma is only used through its functional equation *)
Definition log_gamma_equation (lg : R -> R) : Prop := forall x, (0 < x)%R -> lg (x + 1)%R = (lg x + ln x)%R.

(** A visit to a state: the time spent in it and, if it ended with a transition, the state entered. *)
Notation visit := (R * option nat)%type (only parsing).

(** Predictive log-density of the dwell times when the rate q has a Gamma(a, b) distribution (shape a, rate
    b): after a completed dwell time t the density of t is  a b^a / (b+t)^(a+1)  and the posterior is
    Gamma(a+1, b+t); a visit cut off after time t has probability (b/(b+t))^a and the posterior is
    Gamma(a, b+t). *)
Fixpoint dwell_loglik (a b : R) (h : list visit) : R :=
  match h with
  | [] => 0%R
  | (t, Some _) :: r => (ln (a * Rpower b a / Rpower (b + t) (a + 1)) + dwell_loglik (a + 1) (b + t) r)%R
  | (t, None) :: r => (ln (Rpower (b / (b + t)) a) + dwell_loglik a (b + t) r)%R
  end.

(** Predictive log-probability of the sequence of destinations under a symmetric Dirichlet prior with
    parameter [axx] for each of the possible destinations, of total weight [alpha]: after the destinations
    [seen] the next one is d with probability (axx + number of d in seen) / (alpha + length seen). *)
Fixpoint dest_loglik (alpha axx : R) (seen ds : list nat) : R :=
  match ds with
  | [] => 0%R
  | d :: r => (ln ((axx + INR (count_occ Nat.eq_dec seen d)) / (alpha + INR (length seen)))
               + dest_loglik alpha axx (seen ++ [d]) r)%R
  end.

Definition destinations (h : list visit) : list nat :=
  flat_map (fun v => match snd v with Some d => [d] | None => [] end) h.

(** [h] is a history of visits to state [x] of a variable with [n] states that has the sufficient statistics
    of [c]: total time, number of transitions, number of transitions to each other state *)
Definition history_of (c : cim) (n x : nat) (h : list visit) : Prop :=
  Forall (fun v => 0 <= fst v)%R h
  /\ (forall d, In d (destinations h) -> d < n /\ d <> x)
  /\ exists T row, nth_error (c_times c) x = Some T /\ nth_error (c_trans c) x = Some row
     /\ Qc2R T = Rsum (map fst h)
     /\ nth_error row x = Some (Z.of_nat (length (destinations h)))
     /\ forall d, d < n -> d <> x -> nth_error row d = Some (Z.of_nat (count_occ Nat.eq_dec (destinations h) d)).

(** one history per parent configuration and state *)
Definition histories_of (n : nat) (cims : list cim) (hs : list (list (list visit))) : Prop :=
  Forall2 (fun c hc => length (c_times c) = n /\ length hc = n
                       /\ forall x h, nth_error hc x = Some h -> history_of c n x h) cims hs.

(** prior on the rate of leaving a state: Gamma(alpha + 1, tau); prior on the destination: symmetric
    Dirichlet with total weight alpha *)
Definition visit_loglik (tau alpha : R) (n : nat) (h : list visit) : R :=
  (dwell_loglik (alpha + 1) tau h + dest_loglik alpha (alpha / (INR n - 1)) [] (destinations h))%R.
Definition total_loglik (tau alpha : R) (n : nat) (hs : list (list (list visit))) : R :=
  Rsum (map (fun hc => Rsum (map (visit_loglik tau alpha n) hc)) hs).

(** the statistics of a variable with [n] states: n times, n x n counts, non-negative, each diagonal count
    the sum of the others in its row *)
Definition stats_ok (n : nat) (c : cim) : Prop :=
  length (c_times c) = n /\ length (c_trans c) = n
  /\ (forall x T, nth_error (c_times c) x = Some T -> (0 <= T)%Qc)
  /\ forall x row, nth_error (c_trans c) x = Some row -> length row = n /\ Forall (fun z => (0 <= z)%Z) row
       /\ nth_error row x = Some (Zsum (map (fun j => if j =? x then 0%Z else nth j row 0%Z) (seq 0 n))).

(** The rows of a processed data set read as visits: node column [ni], next-state columns shifted by [tot];
    a row whose next state is another state is a completed visit, any other row (no change of this variable,
    or the end-of-trajectory marker -1) a cut-off one. *)
Definition row_visit (tot ni x : nat) (tr : Qc * list Z) : visit :=
  (Qc2R (fst tr), match nth_error (snd tr) (ni + tot) with
                  | Some z => if (0 <=? z)%Z && negb (z =? Z.of_nat x)%Z then Some (Z.to_nat z) else None
                  | None => None
                  end).
(** the visits to state [x] while the parents (columns [pis]) are in configuration [u] *)
Definition data_visits (t : trajectory) (tot ni : nat) (pis u : list nat) (x : nat) : list visit :=
  map (row_visit tot ni x)
      (filter (fun tr => row_shows (snd tr) (ni :: pis) (x :: u)) (combine (t_times t) (t_rows t))).
Definition data_histories (t : trajectory) (tot ni : nat) (pis : list nat) (c : nat) (us : list (list nat))
  : list (list (list visit)) :=
  map (fun u => map (data_visits t tot ni pis u) (seq 0 c)) us.
