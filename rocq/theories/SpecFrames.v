(** Specification vocabulary for C97: which DataFrames hold a trajectory. *)
From Verif Require Import Base ModelStructure ModelCims ModelData SpecData.

(** [z] is the integer part of [q], rounded towards zero *)
Definition towards_zero (q : Qc) (z : Z) : Prop :=
  ((0 <= q)%Qc -> (Qc_of_Z z <= q)%Qc /\ (q < Qc_of_Z (z + 1))%Qc)
  /\ ((q <= 0)%Qc -> (Qc_of_Z (z - 1) < q)%Qc /\ (q <= Qc_of_Z z)%Qc).

(** [f] holds the trajectory [r] of the variables [vars]: default row labels, the times in the first column, which is
    called Time, and for every variable one column of that name, anywhere, whose cells are numbers with the states as
    integer parts (towards zero).  Any further columns may be there. *)
Definition holds (vars : list label) (f : frame) (r : raw) : Prop :=
  fr_index f = map Z.of_nat (seq 0 (length r))
  /\ Forall (fun nc => length (snd nc) = length r) (fr_cols f)
  /\ NoDup (col_names f)
  /\ (exists rest, fr_cols f = ("Time", map (fun o => Some (fst o)) r) :: rest)
  /\ (forall o, In o r -> length (snd o) = length vars)
  /\ forall j w, nth_error vars j = Some w -> exists qs, assoc_col (fr_cols f) w = Some (map (fun q => Some q) qs)
       /\ Forall2 (fun q o => towards_zero q (nth j (snd o) 0%Z)) qs r.
