(** Specification vocabulary for C81 and C83: several calls of estimate_structure on one estimator. *)
From Verif Require Import Base Lib ModelStructure ModelCtpc SpecCtpc SpecAlgorithm.

(** the candidates that are protected when the algorithm of C81 ends *)
Fixpoint rounds_protected (ask : label -> list label -> bool * bool) (fuel b : nat) (protected candidates : list label) : list label :=
  match fuel with
  | O => protected
  | S f => if b <? length candidates
           then let (kept, protected') := one_round ask b protected [] candidates in rounds_protected ask f (S b) protected' kept
           else protected
  end.
Definition ctpc_protected ask (protected candidates : list label) : list label := rounds_protected ask (S (length candidates)) 0 protected candidates.

(** the candidates protected after calls in the given modes (true: sequential, false: a pool of processes): a sequential
    call leaves its protection marks behind, the processes of a pool do not *)
Fixpoint protected_after ask (candidates protected : list label) (modes : list bool) : list label :=
  match modes with
  | [] => protected
  | true :: r => protected_after ask candidates (ctpc_protected ask protected candidates) r
  | false :: r => protected_after ask candidates protected r
  end.

(** calls of estimate_structure, one after the other, on the same estimator object *)
Fixpoint calls (est : cb_estimator) (modes : list bool) : result (list (list edge) * cb_estimator) :=
  match modes with
  | [] => Ok ([], est)
  | mp :: r => let* (es, est1) := cb_estimate_structure est mp in
               let* (ess, est2) := calls est1 r in Ok (es :: ess, est2)
  end.
(** how often an answer differs from the one before *)
Fixpoint changes (ess : list (list edge)) : nat :=
  match ess with
  | [] => 0
  | a :: r => match r with [] => 0 | b :: _ => if list_eq_dec edge_dec a b then 0 else 1 end + changes r
  end.
