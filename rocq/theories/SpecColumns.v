(** Specification vocabulary for C80: the choice and the order of the columns of the data. *)
From Verif Require Import Base ModelStructure ModelGraph ModelCims ModelData ModelParams SpecStructure SpecComb SpecParams SpecData SpecInvariance.

(** the entries of [l] at the positions [sg], in the order of [sg] *)
Definition pick {A} (sg : list nat) (l : list A) : list A :=
  flat_map (fun i => match nth_error l i with Some a => [a] | None => [] end) sg.
(** some of the [n] columns, each at most once, in any order *)
Definition selection (sg : list nat) (n : nat) : Prop := sg <> [] /\ NoDup sg /\ Forall (fun i => i < n) sg.
(** the trajectories with only these columns, in this order *)
Definition picked (sg : list nat) (rs : list raw) : list raw :=
  map (map (fun o => (fst o, pick sg (snd o)))) rs.

(** import_data(header_column = h) on the frames with the columns [vars], the variables frame listing [h] with the
    cardinalities [cards] *)
Definition imports_header (h vars : list label) (cards : list nat) (prior : option (list edge)) (rs : list raw)
  (s : structure) (t : trajectory) : Prop :=
  exists im sp sp1 sp2,
    sample_import_data (new_sample_importer (map (frame_of vars) rs) (Some (variables_frame h cards)) prior) (Some h) = Ok im
    /\ new_sample_path im = Ok sp /\ sp_build_trajectories sp = Ok sp1 /\ sp_build_structure sp1 = Ok sp2
    /\ sp_structure sp2 = Some s /\ sp_trajectories sp2 = Some t.

(** the parents of [v] in the network with the edges [E], in the order of the labels of [s] *)
Definition parents_of (s : structure) (E : list edge) (v : label) : list label := filter (fun l => emem (l, v) E) (nodes_labels s).
