(** Specification vocabulary for the data path (C16, C42-C46). *)
From Verif Require Import Base ModelStructure ModelCims ModelData SpecParams.

(** cell of column [name] in row [i] of a DataFrame *)
Definition cell_at (f : frame) (name : label) (i : nat) : option (option Qc) :=
  match assoc_col (fr_cols f) name with Some c => nth_error c i | None => None end.
Definition nrows (f : frame) : nat := length (fr_index f).

(** A trajectory as the user supplies it: n rows numbered 0..n-1, columns Time and the variables,
    every cell filled, states integer. *)
Definition raw_frame (vars : list label) (n : nat) (f : frame) : Prop :=
  fr_index f = map Z.of_nat (seq 0 n) /\ col_names f = "Time" :: vars
  /\ Forall (fun nc => length (snd nc) = n) (fr_cols f)
  /\ (forall i, i < n -> exists t, cell_at f "Time" i = Some (Some t))
  /\ (forall v i, In v vars -> i < n -> exists z, cell_at f v i = Some (Some (Qc_of_Z z))).

(** no name clash between the time column, the variables and their shifted columns *)
Definition good_header (vars : list label) : Prop := NoDup ("Time" :: vars ++ shifted_names vars).

(** A raw trajectory: (time, states of all variables) per observation; the DataFrame holding it. *)
Notation raw := (list (Qc * list Z)) (only parsing).
Definition frame_of (vars : list label) (r : raw) : frame :=
  MkFrame (map Z.of_nat (seq 0 (length r)))
    (("Time", map (fun o => Some (fst o)) r)
     :: mapi (fun j v => (v, map (fun o => option_map Qc_of_Z (nth_error (snd o) j)) r)) vars).

(** consecutive observations *)
Definition steps (r : raw) : list ((Qc * list Z) * (Qc * list Z)) := combine r (tl r).

(** time spent by the trajectories with the columns [cols] in the states [vals], and number of
    jumps of column [ni] to state [x'] out of such a situation *)
Definition raw_dwell (rs : list raw) (cols vals : list nat) : Qc :=
  Qcsum (map (fun r => Qcsum (map (fun ab => (fst (snd ab) - fst (fst ab))%Qc)
                                  (filter (fun ab => row_shows (snd (fst ab)) cols vals) (steps r)))) rs).
Definition raw_jumps (rs : list raw) (ni : nat) (x' : nat) (cols vals : list nat) : Z :=
  Zsum (map (fun r => Z.of_nat (length (filter (fun ab => row_shows (snd (fst ab)) cols vals
                                                 && row_shows (snd (snd ab)) [ni] [x']) (steps r)))) rs).

(** A well-formed trajectory for variables with cardinalities [cards]: one state per variable, all in
    range, except that the states of the final observation may be negative (terminator). *)
Definition raw_ok (cards : list nat) (r : raw) : Prop :=
  (forall ab, In ab (steps r) -> Forall2 (fun z c => (0 <= z < Z.of_nat c)%Z) (snd (fst ab)) cards
                               /\ Forall2 (fun z c => (z < Z.of_nat c)%Z) (snd (snd ab)) cards)
  /\ (forall o, In o r -> length (snd o) = length cards).

Definition duration (r : raw) : Qc :=
  match r with [] => 0%Qc | o :: _ => (fst (last r o) - fst o)%Qc end.

(** last minus first value of the Time column of a trajectory with n rows *)
Definition frame_duration (n : nat) (f : frame) : Qc :=
  match cell_at f "Time" 0, cell_at f "Time" (n - 1) with
  | Some (Some a), Some (Some b) => (b - a)%Qc
  | _, _ => 0%Qc
  end.

(** the variables DataFrame: default index, labels, cardinalities *)
Definition variables_frame (vars : list label) (cards : list nat) : vframe :=
  MkVframe (combine (combine (seq 0 (length vars)) vars) cards).

(** what an importer must hold for SamplePath to accept it *)
Definition sample_path_accepts (im : importer) : Prop :=
  (exists v, im_variables im = Some v /\ v_rows v <> [])
  /\ match im_concat im with
     | CEmptyList => True
     | CNone => False
     | CFrame f => fr_index f <> [] /\ fr_cols f <> []
     | CArray n => n <> 0
     end.
