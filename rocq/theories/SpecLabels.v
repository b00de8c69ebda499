(** Specification vocabulary for C95: trajectories handed over as DataFrames with arbitrary row labels. *)
From Verif Require Import Base ModelStructure ModelCims ModelData SpecData.

(** a trajectory with one row label (pandas index entry) per observation *)
Notation tagged := (list Z * list (Qc * list Z))%type (only parsing).
(** its DataFrame: the columns of [frame_of], the given labels *)
Definition labelled (vars : list label) (d : tagged) : frame := MkFrame (fst d) (fr_cols (frame_of vars (snd d))).
Definition one_label_per_row (d : tagged) : Prop := length (fst d) = length (snd d).

(** the steps (pairs of consecutive observations) that start at a row whose label differs from the last row's *)
Definition kept_steps (d : tagged) : list ((Qc * list Z) * (Qc * list Z)) :=
  map snd (filter (fun p => negb (Z.eqb (fst p) (last (fst d) 0%Z))) (combine (fst d) (steps (snd d)))).

(** the last row's label is carried by no other row *)
Definition last_label_unique (d : tagged) : Prop :=
  forall i z, S i < length (fst d) -> nth_error (fst d) i = Some z -> z <> last (fst d) 0%Z.

(** the data set learned from, given the steps that reach it *)
Definition from_steps (vars : list label) (l : list ((Qc * list Z) * (Qc * list Z))) : trajectory :=
  MkTrajectory (map (fun ab => (fst (snd ab) - fst (fst ab))%Qc) l) (map (fun ab => snd (fst ab) ++ snd (snd ab)) l)
               (length vars + length vars) (length vars + 1).

(** the user's import of a list of DataFrames up to SamplePath(), and up to the built data set *)
Definition imports_frames (fs : list frame) (vars : list label) (cards : list nat) (prior : option (list edge))
  (s : structure) (t : trajectory) : Prop :=
  exists im sp sp1 sp2,
    sample_import_data (new_sample_importer fs (Some (variables_frame vars cards)) prior) None = Ok im
    /\ new_sample_path im = Ok sp /\ sp_build_trajectories sp = Ok sp1 /\ sp_build_structure sp1 = Ok sp2
    /\ sp_structure sp2 = Some s /\ sp_trajectories sp2 = Some t.
