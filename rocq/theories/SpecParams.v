(** Specification vocabulary for the sufficient statistics (C10-C16). *)
From Verif Require Import Base ModelStructure ModelGraph ModelCims ModelData ModelParams SpecStructure SpecComb.

(** In [row], the columns [cols] hold exactly the states [vals]. *)
Definition row_shows (row : list Z) (cols vals : list nat) : bool :=
  forallb (fun cv => match nth_error row (fst cv) with
                     | Some z => Z.eqb z (Z.of_nat (snd cv)) | None => false end) (combine cols vals).

(** all the columns exist and hold a state in range *)
Definition row_in_range (row : list Z) (cols cards : list nat) : Prop :=
  Forall2 (fun col c => exists d, nth_error row col = Some (Z.of_nat d) /\ d < c) cols cards.

(** total time of the rows in which the columns hold these states *)
Definition dwell_time (times : list Qc) (traj : list (list Z)) (cols vals : list nat) : Qc :=
  Qcsum (map fst (filter (fun tr => row_shows (snd tr) cols vals) (combine times traj))).

(** number of rows in which the columns hold these states *)
Definition row_count (traj : list (list Z)) (cols vals : list nat) : Z :=
  Z.of_nat (length (filter (fun r => row_shows r cols vals) traj)).

(** every parent that really varies has the node's cardinality *)
Definition compat (c : nat) (ps : list nat) : Prop := forall p, In p ps -> 2 <= p -> p = c.

(** a row of the complete trajectory: the next state of the node exists; when it is not negative, the
    node's next state, its state and its parents' states are in range *)
Definition transition_row_ok (tot ni : nat) (pis : list nat) (c : nat) (ps : list nat) (row : list Z) : Prop :=
  exists z, nth_error row (ni + tot) = Some z
   /\ ((0 <= z)%Z -> row_in_range row ((ni + tot) :: ni :: pis) (c :: c :: ps)).

(** the two data sets consist of the same (duration, row) pairs in a possibly different order *)
Definition same_rows_up_to_order (t t' : trajectory) : Prop :=
  length (t_times t) = length (t_rows t) /\ length (t_times t') = length (t_rows t')
  /\ t_width t = t_width t' /\ t_orig t = t_orig t'
  /\ Permutation (combine (t_times t) (t_rows t)) (combine (t_times t') (t_rows t')).

(** What a processed data set of the variables of [s] looks like: one duration per row; [tot] columns of
    current states followed by [tot] columns of next states; every current state is in range, every
    next state is in range or negative (end-of-trajectory marker). *)
Definition data_ok (s : structure) (t : trajectory) : Prop :=
  let tot := total_variables_number s in
  length (t_times t) = length (t_rows t) /\ t_width t = tot + tot /\ t_orig t = tot + 1
  /\ forall row, In row (t_rows t) ->
     forall l i c, structure_get_node_indx s l = Ok i -> structure_get_states_number s l = Ok c ->
       i < tot
       /\ (exists d, nth_error row i = Some (Z.of_nat d) /\ d < c)
       /\ (exists z, nth_error row (i + tot) = Some z /\ (z < Z.of_nat c)%Z).

(** Statistics of one parent configuration [u], read directly off the rows: [ni] is the node's column,
    [pis] the parents' columns, [tot] the offset of the next-state columns. *)
Definition exact_times (t : trajectory) (ni : nat) (pis : list nat) (c : nat) (u : list nat) : list Qc :=
  map (fun x => dwell_time (t_times t) (t_rows t) (ni :: pis) (x :: u)) (seq 0 c).
Definition jumps (t : trajectory) (tot ni : nat) (pis u : list nat) (x x' : nat) : Z :=
  row_count (t_rows t) ((ni + tot) :: ni :: pis) (x' :: x :: u).
Definition exact_counts (t : trajectory) (tot ni : nat) (pis : list nat) (c : nat) (u : list nat) : list (list Z) :=
  map (fun x => map (fun x' => if x' =? x
                               then Zsum (map (fun y => if y =? x then 0%Z else jumps t tot ni pis u x y) (seq 0 c))
                               else jumps t tot ni pis u x x') (seq 0 c)) (seq 0 c).

(** [v] has [c] states and dataset column [ni]; its parents in the graph with edges [E], in label order,
    have the columns [pis] and the cardinalities [ps] *)
Definition node_view (s : structure) (E : list edge) (v : label) (c ni : nat) (pis ps : list nat) : Prop :=
  let parents := filter (fun l => emem (l, v) E) (nodes_labels s) in
  structure_get_states_number s v = Ok c /\ structure_get_node_indx s v = Ok ni
  /\ Forall2 (fun p i => structure_get_node_indx s p = Ok i) parents pis
  /\ Forall2 (fun p k => structure_get_states_number s p = Ok k) parents ps.

(** for every in-range data set (node in column 0, parents in the next columns) the residence times
    stored for a node with [c] states and parents with cardinalities [ps] are the dwell times *)
Definition residence_correct (c : nat) (ps : list nat) : Prop :=
  forall times traj, length times = length traj ->
    Forall (fun row => row_in_range row (0 :: seq 1 (length ps)) (c :: ps)) traj ->
    exists T, compute_state_res_time_for_node times traj
                (build_time_columns_filtering_for_a_node 0 (seq 1 (length ps)))
                (build_time_scalar_indexing_structure_for_a_node c ps) (nat_prod ps) c = Ok T
      /\ forall u x, config_ok ps u -> x < c ->
          exists row, nth_error T (config_rank ps u) = Some row
            /\ nth_error row x = Some (dwell_time times traj (0 :: seq 1 (length ps)) (x :: u)).

