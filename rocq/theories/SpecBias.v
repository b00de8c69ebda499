(** Specification vocabulary for C85: the rates one would read off the data. *)
From Verif Require Import Base ModelStructure ModelGraph ModelCims ModelData ModelParams SpecGraph SpecComb SpecParams SpecData SpecInvariance.

(** transitions from state [x] to [y] while the parents are in [u]; for y = x all the transitions that leave x, with a minus sign *)
Definition net_transitions (rs : list raw) (ni : nat) (pis : list nat) (c : nat) (u : list nat) (x y : nat) : Z :=
  if x =? y then Z.opp (Zsum (map (fun z => if z =? x then 0%Z else raw_jumps rs ni z (ni :: pis) (x :: u)) (seq 0 c)))
  else raw_jumps rs ni y (ni :: pis) (x :: u).
Definition time_spent (rs : list raw) (ni : nat) (pis : list nat) (u : list nat) (x : nat) : Qc := raw_dwell rs (ni :: pis) (x :: u).
(** the entry of the intensity matrix that the data suggest: transitions per unit of time *)
Definition observed_rate (rs : list raw) (ni : nat) (pis : list nat) (c : nat) (u : list nat) (x y : nat) : Qc :=
  (Qc_of_Z (net_transitions rs ni pis c u x y) / time_spent rs ni pis u x)%Qc.
Definition Qcabs (q : Qc) : Qc := if Qclt_le_dec q 0 then (- q)%Qc else q.
(** [soc] are the parameters of variable [v] that a user gets from the trajectories [rs] for the network with the edges [es]
    (and the known ones): import, build, NetworkGraph, fast_init, compute_parameters_for_node.  [v] is column [ni] and has [c]
    states; its parents are the columns [pis], each with [c] states or a single one *)
Definition learned (vars : list label) (cards : list nat) (prior : option (list edge)) (es : list edge) (v : label) (c ni : nat) (pis ps : list nat)
  (rs : list raw) (soc : set_of_cims cim) : Prop :=
  exists s t g, imports_to vars cards prior rs s t /\ edges_within vars es /\ edges_within vars (match prior with None => [] | Some l => l end)
    /\ node_view s (es ++ edges_list s) v c ni pis ps /\ 0 < c /\ compat c ps
    /\ ng_fast_init (fresh_graph s es) v = Ok g /\ compute_parameters_for_node t g v = Ok soc.
(** the entry for states [x] and [y] of the CIM for the parent configuration [u] is [q] *)
Definition intensity (ps : list nat) (soc : set_of_cims cim) (u : list nat) (x y : nat) (q : Qc) : Prop :=
  exists cm row, nth_error (so_actual_cims soc) (config_rank ps u) = Some cm /\ nth_error (c_cim cm) x = Some row /\ nth_error row y = Some q.
(** the same trajectories [n] times *)
Definition copies {A} (n : nat) (rs : list A) : list A := concat (repeat rs n).
From Coq Require Import Reals.
(** logarithm of the likelihood of [m] transitions of one kind in time [t] when their rate is [q] *)
Definition log_likelihood (m t q : R) : R := (m * ln q - t * q)%R.
