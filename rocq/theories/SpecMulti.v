(** Specification vocabulary for multi_trajectory (C53). *)
From Coq Require Export Relation_Operators.
From Verif Require Import Base ModelStructure ModelGraph ModelCims ModelGenerator ModelSample ModelMulti.
Open Scope nat_scope.

(** [rows] is what a single call of CTBN_Sample returns for the request, started from the random source [g] *)
Definition returns (tg : trajgen) (g : rng) (req : Qc * Z) (rows : list (Qc * list Z)) : Prop :=
  exists fuel, ctbn_sample fuel tg g (fst req) (snd req) = Ok rows.

(** some schedule makes multi_trajectory return [l] *)
Definition multi_returns (step : mstate -> mstate -> Prop) (g : rng) (reqs : list (Qc * Z)) (l : list (list (Qc * list Z))) : Prop :=
  exists s, clos_refl_trans _ step (multi_init g reqs) s /\ ms_parent s = PReturned l.
