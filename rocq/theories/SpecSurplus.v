(** Specification vocabulary for C99: the score when states that never occur are declared. *)
From Coq Require Import Reals QArith Qcanon ZArith.
From Verif Require Import Base ModelStructure ModelData SpecData SpecFamScore.
Open Scope nat_scope.

(** some visit of the histories ended with a transition *)
Definition some_transition (hs : list (list (list (R * option nat)))) : Prop :=
  exists hc h, In hc hs /\ In h hc /\ destinations h <> [].
(** between the two observations of a step the variable in column [ni] changes its state *)
Definition changed (ni : nat) (ab : (Qc * list Z) * (Qc * list Z)) : bool :=
  match nth_error (snd (fst ab)) ni, nth_error (snd (snd ab)) ni with Some x, Some y => negb (x =? y)%Z | _, _ => false end.
