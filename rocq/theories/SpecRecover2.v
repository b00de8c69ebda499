(** Specification vocabulary for exact recovery stated on the data (C62). *)
From Coq Require Import Reals.
From Verif Require Import Base ModelStructure ModelGraph ModelCims ModelData ModelParams ModelFamScore ModelIndep
  SpecStructure SpecParams SpecCtpc SpecFamScore SpecIndep.
Open Scope nat_scope.

(** the number of exits from state [x] and the time spent there, in two tables of one binary variable, do not contradict
    a common exit rate: one table has no exit at all, or both have a single one, or both have several and the ratio of the
    smoothed rates lies between the two quantiles *)
Definition rates_agree (P : test_params) (c1 c2 : cim) (x : nat) : Prop :=
  exits c1 x = 0%Z \/ exits c2 x = 0%Z \/ (exits c1 x = 1%Z /\ exits c2 x = 1%Z)
  \/ ((2 <= exits c1 x)%Z /\ (2 <= exits c2 x)%Z
      /\ between (f_ppf P (exp_alpha P / 2)%R (exits c1 x) (exits c2 x)) (smoothed_ratio c1 c2 x)
                 (f_ppf P (1 - exp_alpha P / 2)%R (exits c1 x) (exits c2 x))).

(** in the data, the exit rates of the binary variable [v] given [sep] agree with those given [sep] and [q], whatever the
    states of these variables *)
Definition separated (P : test_params) (s : structure) (t : trajectory) (v q : label) (sep : list label) : Prop :=
  let sp := filter (fun l => lmem l sep) (nodes_labels s) in
  let lp := filter (fun l => lmem l (q :: sep)) (nodes_labels s) in
  forall ni spc lpc (a : label -> nat), structure_get_node_indx s v = Ok ni -> columns_of s sp spc -> columns_of s lp lpc ->
    (forall l, a l < 2) -> forall x, x < 2 ->
    rates_agree P (data_cim t (total_variables_number s) ni spc 2 (map a sp))
                  (data_cim t (total_variables_number s) ni lpc 2 (map a lp)) x.
