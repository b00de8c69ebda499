(** Model of PyCTBN/PyCTBN/estimators/parameters_estimator.py.
    numpy float arithmetic is exact here; in the code it is exact as long as the indexes stay
    below 2^53 (they are products of integers) and the times are summed in floating point. *)
From Verif Require Import Base ModelStructure ModelGraph ModelCims ModelData.

(** [arr[:, cols]] on one row: IndexError for a column out of range *)
Definition select_columns (row : list Z) (cols : list nat) : result (list Z) :=
  res_map (nth_res row) cols.

(** np.sum(row * scalar / scalar[0], axis=1).astype(int) *)
Definition dot (row scalar : list Z) : Z :=
  Zsum (map (fun p => (fst p * snd p)%Z) (combine row scalar)).
Definition scalar_index (row scalar : list Z) : Z := Z.quot (dot row scalar) (hd 0%Z scalar).

(** length of np.bincount: max(minlength, max + 1) *)
Definition bincount_length (idx : list Z) (minlength : nat) : nat :=
  fold_right (fun i m => Nat.max (S (Z.to_nat i)) m) minlength idx.

(** np.bincount(idx, weights, minlength): ValueError for negative entries or for weights of
    another length *)
Definition bincount_weights (idx : list Z) (w : list Qc) (minlength : nat) : result (list Qc) :=
  if existsb (fun i => (i <? 0)%Z) idx then Err ValueError
  else if negb (length idx =? length w) then Err ValueError
  else Ok (map (fun k => Qcsum (map snd (filter (fun p => Z.eqb (fst p) (Z.of_nat k)) (combine idx w))))
               (seq 0 (bincount_length idx minlength))).
Definition bincount (idx : list Z) (minlength : nat) : result (list Z) :=
  if existsb (fun i => (i <? 0)%Z) idx then Err ValueError
  else Ok (map (fun k => Z.of_nat (length (filter (Z.eqb (Z.of_nat k)) idx)))
               (seq 0 (bincount_length idx minlength))).

(** arr.reshape(-1, c) of a flat array: ValueError when the size is not a multiple of c *)
Definition reshape_rows {A} (c : nat) (l : list A) : result (list (list A)) :=
  if (c =? 0) || negb (length l mod c =? 0) then Err ValueError
  else Ok (map (fun r => firstn c (skipn (r * c) l)) (seq 0 (length l / c))).

(** [dst[:] = src] along the first axis, where dst has k entries on it: broadcasting *)
Definition broadcast_rows {A} (k : nat) (rows : list A) : result (list A) :=
  if length rows =? k then Ok rows
  else match rows with
       | [r] => Ok (repeat r k)
       | _ => Err ValueError
       end.

(** parameters_estimator.py:65-87.  [k], [c]: shape of T.  A zero cardinality makes the code fail
    with ValueError (reshape to width 0). *)
Definition compute_state_res_time_for_node (times : list Qc) (traj : list (list Z)) (cols : list nat)
  (scalar : list Z) (k c : nat) : result (list (list Qc)) :=
  if Z.eqb (hd 0%Z scalar) 0 then Err ValueError
  else
    let* sel := res_map (fun row => select_columns row cols) traj in
    let idx := map (fun row => scalar_index row scalar) sel in
    let* b := bincount_weights idx times (Z.to_nat (last scalar 0%Z)) in
    let* rows := reshape_rows c b in
    broadcast_rows k rows.

(** parameters_estimator.py:105-106: [x * c + x % c for x in range(k * c)] *)
Definition diag_indices (k c : nat) : list nat := map (fun x => x * c + x mod c) (seq 0 (k * c)).

(** fancy-index assignment on the raveled view *)
Definition assign_at {A} (l : list A) (ivs : list (nat * A)) : list A :=
  fold_left (fun acc iv => set_at acc (fst iv) (snd iv)) ivs l.

(** arr.reshape(-1, c, c) *)
Definition reshape_mats {A} (c : nat) (l : list A) : result (list (list (list A))) :=
  let* mats := reshape_rows (c * c) l in res_map (reshape_rows c) mats.

(** parameters_estimator.py:89-112.  [width]: trajectory.shape[1]; [k]: M.shape[0], [c]: M.shape[1]. *)
Definition compute_state_transitions_for_a_node (node_indx : nat) (traj : list (list Z)) (width : nat)
  (cols : list nat) (scalar : list Z) (k c : nat) : result (list (list (list Z))) :=
  if Z.eqb (hd 0%Z scalar) 0 then Err ValueError
  else
    let* next := res_map (fun row => nth_res row (width / 2 + node_indx)) traj in
    let trj_tmp := map fst (filter (fun rn => (0 <=? snd rn)%Z) (combine traj next)) in   (* line 107 *)
    let* sel := res_map (fun row => select_columns row cols) trj_tmp in
    let idx := map (fun row => scalar_index row scalar) sel in
    let* b := bincount idx (Z.to_nat (last scalar 0%Z)) in                              (* line 108 *)
    let* mats := reshape_mats c b in
    let* m := broadcast_rows k mats in
    let raveled := concat (map (@concat Z) m) in                                          (* line 110 *)
    let zeroed := assign_at raveled (map (fun i => (i, 0%Z)) (diag_indices k c)) in        (* line 111 *)
    let* rows := reshape_rows c zeroed in
    let sums := map Zsum rows in                                  (* np.sum(M, axis=2).ravel() *)
    reshape_mats c (assign_at zeroed (combine (diag_indices k c) sums)).                  (* line 112 *)

Definition opt_get {A} (o : option A) : result A :=
  match o with Some a => Ok a | None => Err TypeError end.

(** parameters_estimator.py:31-63 together with set_of_cims.py:46-56 (the shapes of the statistics:
    prod of the parents' cardinalities, or 1 without parents) *)
Definition compute_parameters_for_node (t : trajectory) (g : netgraph) (n : label)
  : result (set_of_cims cim) :=
  let* pinfo := opt_get (ng_pinfo g) in
  let p_vals := snd pinfo in
  let* c := ng_get_states_number g n in
  let* p_combs := opt_get (ng_p_combs g) in
  let k := nat_prod p_vals in
  let* node_indx := ng_get_node_indx g n in
  let* tf := opt_get (ng_time_filtering g) in
  let* ti := opt_get (ng_time_indexing g) in
  let* T := compute_state_res_time_for_node (t_times t) (traj_trajectory t) tf ti k c in
  let* mf := opt_get (ng_trans_filtering g) in
  let* mi := opt_get (ng_trans_indexing g) in
  let* M := compute_state_transitions_for_a_node node_indx (traj_complete t) (t_width t) mf mi k c in
  Ok (MkSetOfCims p_combs (build_cims T M)).
