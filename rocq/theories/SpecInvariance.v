(** Specification vocabulary: data sets that carry the same observations (C64, C65). *)
From Verif Require Import Base ModelStructure ModelGraph ModelCims ModelData ModelParams ModelCtpc
  SpecStructure SpecParams SpecData SpecCtpc.

(** Two lists of raw trajectories describe the same observed process: they differ in the order of the
    trajectories, by a shift of a trajectory's clock, by cutting a trajectory at an observation (which then
    ends the first part and starts the second), and by further observations at which no variable has changed
    since the previous one (before the last observation). *)
Inductive same_observations : list raw -> list raw -> Prop :=
| obs_refl rs : same_observations rs rs
| obs_sym rs rs' : same_observations rs rs' -> same_observations rs' rs
| obs_trans rs rs' rs'' : same_observations rs rs' -> same_observations rs' rs'' -> same_observations rs rs''
| obs_order rs rs' : Permutation rs rs' -> same_observations rs rs'
| obs_shift d r rs : same_observations (r :: rs) (map (fun o => (fst o + d, snd o)%Qc) r :: rs)
| obs_cut a o b rs : same_observations ((a ++ o :: b) :: rs) ((a ++ [o]) :: (o :: b) :: rs)
| obs_unchanged a t t' x o b rs :
    same_observations ((a ++ (t, x) :: o :: b) :: rs) ((a ++ (t, x) :: (t', x) :: o :: b) :: rs).

(** everything but the data is the same, and so are the answers *)
Definition same_edges {A B} (r : result (list edge * A)) (r' : result (list edge * B)) : Prop :=
  match r, r' with
  | Ok (es, _), Ok (es', _) => es = es'
  | Err x, Err y => x = y
  | _, _ => False
  end.

(** the import chain of the user: SampleImporter on the trajectories' DataFrames, SamplePath, build_trajectories,
    build_structure; [s] and [t] are what the estimators are given *)
Definition imports_to (vars : list label) (cards : list nat) (prior : option (list edge)) (rs : list raw)
  (s : structure) (t : trajectory) : Prop :=
  exists im sp sp1 sp2,
    sample_import_data (new_sample_importer (map (frame_of vars) rs) (Some (variables_frame vars cards)) prior) None = Ok im
    /\ new_sample_path im = Ok sp /\ sp_build_trajectories sp = Ok sp1 /\ sp_build_structure sp1 = Ok sp2
    /\ sp_structure sp2 = Some s /\ sp_trajectories sp2 = Some t.

(** a legal input: distinct names that do not clash, one cardinality per variable, trajectories in range, at least
    one trajectory with two observations *)
Definition legal_input (vars : list label) (cards : list nat) (rs : list raw) : Prop :=
  good_header vars /\ vars <> [] /\ length cards = length vars /\ Forall (raw_ok cards) rs
  /\ (exists r, In r rs /\ 2 <= length r).

(** entrywise sum of two CIM objects' statistics *)
Definition adds_up (cm1 cm2 cm : cim) : Prop :=
  length (c_times cm) = length (c_times cm1) /\ length (c_times cm) = length (c_times cm2)
  /\ length (c_trans cm) = length (c_trans cm1) /\ length (c_trans cm) = length (c_trans cm2)
  /\ (forall x a b, nth_error (c_times cm1) x = Some a -> nth_error (c_times cm2) x = Some b -> nth_error (c_times cm) x = Some (a + b)%Qc)
  /\ (forall x ra rb r, nth_error (c_trans cm1) x = Some ra -> nth_error (c_trans cm2) x = Some rb -> nth_error (c_trans cm) x = Some r ->
        length r = length ra /\ length r = length rb
        /\ forall y a b, nth_error ra y = Some a -> nth_error rb y = Some b -> nth_error r y = Some (a + b)%Z).

(** every clock reading multiplied by [k] *)
Definition rescaled (k : Qc) (rs : list raw) : list raw := map (map (fun o => (k * fst o, snd o)%Qc)) rs.

(** the statistics of [cm'] are those of [cm] in a time unit [k] times smaller *)
Definition same_in_unit (k : Qc) (cm cm' : cim) : Prop :=
  c_times cm' = map (fun d => k * d)%Qc (c_times cm) /\ c_trans cm' = c_trans cm.

(** all the variables have the same number of states *)
Definition equal_cards (cards : list nat) (k : nat) : Prop := 0 < k /\ forall c, In c cards -> c = k.
