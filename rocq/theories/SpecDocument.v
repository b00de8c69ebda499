(** Specification vocabulary for files written and read back (C66, C67). *)
From Verif Require Import Base ModelStructure ModelGraph ModelCims ModelData ModelGenerator ModelSample ModelExport ModelDocument
  SpecData SpecGenerator SpecSample.
Open Scope nat_scope.

(** the structure and the trajectory that SamplePath makes of an importer, in the documented order of calls *)
Definition learning_data (im : importer) (s : structure) (t : trajectory) : Prop :=
  exists sp sp1 sp2, new_sample_path im = Ok sp /\ sp_build_trajectories sp = Ok sp1 /\ sp_build_structure sp1 = Ok sp2
    /\ sp_structure sp2 = Some s /\ sp_trajectories sp2 = Some t.

(** what one does to save a network and trajectories: create the exporter, add the trajectories one by one *)
Definition exporter_for (vars : list label) (cards : list nat) (E : list edge) (cs : list (label * set_of_cims (list (list Qc))))
  (rs : list raw) : exporter :=
  fold_left add_trajectory (map (frame_of vars) rs) (new_exporter (combine vars cards) E cs).

(** reading it back with the labels the exporter uses *)
Definition reimport (doc : json) : result (importer * option json) :=
  json_document_import doc "samples" "dyn.str" "variables" "Time" (Some "dyn.cims") 0.

(** the trajectories [rs] were produced by CTBN_Sample *)
Definition generated_by (tg : trajgen) (rs : list raw) : Prop :=
  forall r, In r rs -> exists fuel g t_end max_tr, rng_ok g /\ ctbn_sample fuel tg g t_end max_tr = Ok r.
