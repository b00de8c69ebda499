(** Specification vocabulary for the coding of the states (C75). *)
From Verif Require Import Base ModelStructure ModelCims ModelData SpecParams SpecData.

(** another numbering of the states: state [x] of the variable in column [i] is written [code i x]; the negative end
    marker is kept *)
Definition recode (f : nat -> nat) (z : Z) : Z := if (z <? 0)%Z then z else Z.of_nat (f (Z.to_nat z)).
Definition recoded (code : nat -> nat -> nat) (rs : list raw) : list raw :=
  map (map (fun o => (fst o, mapi (fun i z => recode (code i) z) (snd o)))) rs.

(** every variable's states are renumbered within its range, distinct states differently *)
Definition coding (code : nat -> nat -> nat) (cards : list nat) : Prop :=
  forall i c, nth_error cards i = Some c ->
    (forall x, x < c -> code i x < c) /\ (forall x y, x < c -> y < c -> code i x = code i y -> x = y).

(** the states [vals] of the variables in columns [cols], in the other numbering *)
Definition recode_config (code : nat -> nat -> nat) (cols vals : list nat) : list nat :=
  map (fun iv => code (fst iv) (snd iv)) (combine cols vals).

(** entry (x, y) of a matrix *)
Definition entry_at {A} (m : list (list A)) (x y : nat) : option A :=
  match nth_error m x with Some row => nth_error row y | None => None end.

(** the CIM object [cm'] is [cm] with its [c] states renumbered by [f] *)
Definition same_recoded (f : nat -> nat) (c : nat) (cm cm' : cim) : Prop :=
  length (c_times cm') = c /\ length (c_trans cm') = c /\ length (c_cim cm') = c
  /\ (forall x, x < c -> nth_error (c_times cm') (f x) = nth_error (c_times cm) x /\ nth_error (c_times cm) x <> None)
  /\ (forall x y, x < c -> y < c -> entry_at (c_trans cm') (f x) (f y) = entry_at (c_trans cm) x y /\ entry_at (c_trans cm) x y <> None)
  /\ (forall x y, x < c -> y < c -> entry_at (c_cim cm') (f x) (f y) = entry_at (c_cim cm) x y /\ entry_at (c_cim cm) x y <> None).
