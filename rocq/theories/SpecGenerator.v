(** Specification vocabulary for the network generator (C47, C48). *)
From Verif Require Import Base ModelStructure ModelGraph ModelCims ModelGenerator.
Open Scope nat_scope.

(** random.shuffle returns a rearrangement *)
Definition shuffles (f : list edge -> list edge) : Prop := forall l, Permutation l (f l).

(** number of ordered pairs of distinct labels *)
Definition max_edges (n : nat) : nat := n * (n - 1).

(** one row of an intensity matrix: the diagonal (position [i]) is minus the total rate, which lies in
    [lo, hi]; the other entries are non-negative and add up to the total rate *)
Definition rate_row (lo hi : Qc) (c i : nat) (row : list Qc) : Prop :=
  length row = c /\ Qcsum row = 0%Qc
  /\ (exists d, nth_error row i = Some (- d)%Qc /\ (lo <= d)%Qc /\ (d <= hi)%Qc)
  /\ (forall j x, j <> i -> nth_error row j = Some x -> (0 <= x)%Qc).

(** [y] is [x] rounded to four decimal digits *)
Definition rounded4 (x y : Qc) : Prop :=
  (exists z, y * Q2Qc 10000 = Qc_of_Z z)%Qc /\ (- Q2Qc (1#20000) <= y - x)%Qc /\ (y - x <= Q2Qc (1#20000))%Qc.

(** the parents of [v] in the generated graph, in label order *)
Definition gen_parents (labels : list label) (E : list edge) (v : label) : list label :=
  filter (fun l => emem (l, v) E) labels.
(** cardinality of a label in the generator's tables *)
Definition card_in (labels : list label) (vals : list nat) (v : label) (c : nat) : Prop :=
  exists i, nth_error labels i = Some v /\ nth_error vals i = Some c.
(** the density as a number *)
Definition density_value (d : pynum) : Qc := match d with PyInt z => Qc_of_Z z | PyFloat q => q end.
