(** Specification vocabulary: every observed change is counted once (C68), generated data (C67). *)
From Verif Require Import Base ModelStructure ModelGraph ModelCims ModelData ModelParams SpecStructure SpecParams SpecData.

(** between two consecutive observations the variable in column [ni] changes its state, and the new state is not the
    negative marker of an ended trajectory *)
Definition changes_state (ni : nat) (ab : (Qc * list Z) * (Qc * list Z)) : bool :=
  match nth_error (snd (fst ab)) ni, nth_error (snd (snd ab)) ni with
  | Some x, Some y => (0 <=? y)%Z && negb (x =? y)%Z
  | _, _ => false
  end.
(** number of observed changes of the variable in column [ni] *)
Definition observed_changes (rs : list raw) (ni : nat) : Z :=
  Zsum (map (fun r => Z.of_nat (length (filter (changes_state ni) (steps r)))) rs).

(** the sums of the diagonal entries, of the other entries, and of the residence times of an estimated CIM *)
Definition diagonal_counts (cm : cim) : Z := Zsum (mapi (fun x row => nth x row 0%Z) (c_trans cm)).
Definition jump_counts (cm : cim) : Z := (Zsum (map Zsum (c_trans cm)) - diagonal_counts cm)%Z.
Definition total_time (cm : cim) : Qc := Qcsum (c_times cm).
