(** Specification vocabulary for the independence test with arbitrary cardinalities (C19). *)
From Verif Require Import Base ModelStructure ModelGraph ModelCims ModelData ModelParams ModelCache ModelCtpc
  SpecStructure SpecGraph SpecComb SpecParams SpecCtpc.

(** the parameters of [c] with parents [K], computed from scratch by ParametersEstimator *)
Definition parameters_given (e : cb_env) (c : label) (K : list label) (so : set_of_cims cim) : Prop :=
  exists g, ng_fast_init (fresh_graph (clean_structure_edges (e_struct e)) (map (fun x => (x, c)) K)) c = Ok g
    /\ compute_parameters_for_node (e_traj e) g c = Ok so.

(** rule of thumb, for a count matrix of any size *)
Definition plenty (threshold : Qc) (cs pcard : nat) (sep_cards : list nat) (cm : cim) : Prop :=
  2 < cs -> (threshold <= Qc_of_Z (Zsum (map (fun x => nth x (nth x (c_trans cm) []) 0%Z) (seq 0 (length (c_trans cm)))))
                          / Qc_of_Z (Z.of_nat ((cs - 1) * (cs - 1) * pcard * nat_prod sep_cards)))%Qc.

