(** The parameter estimation once more, with IEEE 754 binary64 arithmetic (Flocq) where the code computes with
    numpy float64: the time differences (abstract_importer.py:84), the flat indexes (parameters_estimator.py:83,108),
    the sums of np.bincount (parameters_estimator.py:83-87) and the coefficients
    (conditional_intensity_matrix.py:28-33).  [ModelParams] is the same code over exact rationals. *)
From Flocq Require Import Core BinarySingleNaN.
From Verif Require Import Base ModelStructure ModelGraph ModelCims ModelData ModelParams.

(** numpy float64: 53 bits of precision, round to nearest even.  All NaNs are one value. *)
Notation f64 := (binary_float 53 1024).
Definition fadd : f64 -> f64 -> f64 := @Bplus 53 1024 eq_refl eq_refl mode_NE.
Definition fsub : f64 -> f64 -> f64 := @Bminus 53 1024 eq_refl eq_refl mode_NE.
Definition fdiv : f64 -> f64 -> f64 := @Bdiv 53 1024 eq_refl eq_refl mode_NE.
(** conversion of an int64 to float64 *)
Definition f_of_Z (z : Z) : f64 := binary_normalize 53 1024 eq_refl eq_refl mode_NE z 0 false.
Definition f_zero : f64 := f_of_Z 0.
Definition f_one : f64 := f_of_Z 1.

(** abstract_importer.py:84,88: iloc[:, 0].diff().shift(-1), and drop(tail(1)): entry i is t[i+1] - t[i] *)
Fixpoint f_deltas (ts : list f64) : list f64 :=
  match ts with
  | a :: ((b :: _) as r) => fsub b a :: f_deltas r
  | _ => []
  end.
(** abstract_importer.py:110-120: the trajectories one after the other; then trajectory.py: the first column *)
Definition f_times (tss : list (list f64)) : list f64 := flat_map f_deltas tss.

(** np.sum(row * scalar / scalar[0], axis=1).astype(int): the products are int64, the division is float64.
    numpy may add the terms in another order; under the hypotheses of C69 all
    partial sums are integers below 2^53, which binary64 adds exactly, so the order does not matter. *)
Definition f_terms (row scalar : list Z) : list f64 :=
  map (fun p => fdiv (f_of_Z (fst p * snd p)) (f_of_Z (hd 0%Z scalar))) (combine row scalar).
Definition f_sum (l : list f64) : f64 := fold_left fadd l f_zero.
Definition f_scalar_index (row scalar : list Z) : Z := Btrunc (f_sum (f_terms row scalar)).

(** np.bincount(idx, weights, minlength): bins start at 0.0 and are accumulated in the order of the rows *)
Definition f_bincount_weights (idx : list Z) (w : list f64) (minlength : nat) : result (list f64) :=
  if existsb (fun i => (i <? 0)%Z) idx then Err ValueError
  else if negb (length idx =? length w) then Err ValueError
  else Ok (map (fun k => f_sum (map snd (filter (fun p => Z.eqb (fst p) (Z.of_nat k)) (combine idx w))))
               (seq 0 (bincount_length idx minlength))).

(** parameters_estimator.py:65-87 *)
Definition f_compute_state_res_time_for_node (times : list f64) (traj : list (list Z)) (cols : list nat)
  (scalar : list Z) (k c : nat) : result (list (list f64)) :=
  if Z.eqb (hd 0%Z scalar) 0 then Err ValueError
  else
    let* sel := res_map (fun row => select_columns row cols) traj in
    let idx := map (fun row => f_scalar_index row scalar) sel in
    let* b := f_bincount_weights idx times (Z.to_nat (last scalar 0%Z)) in
    let* rows := reshape_rows c b in
    broadcast_rows k rows.

(** parameters_estimator.py:89-112: as in [ModelParams] (the counts are integers) except for the indexes *)
Definition f_compute_state_transitions_for_a_node (node_indx : nat) (traj : list (list Z)) (width : nat)
  (cols : list nat) (scalar : list Z) (k c : nat) : result (list (list (list Z))) :=
  if Z.eqb (hd 0%Z scalar) 0 then Err ValueError
  else
    let* next := res_map (fun row => nth_res row (width / 2 + node_indx)) traj in
    let trj_tmp := map fst (filter (fun rn => (0 <=? snd rn)%Z) (combine traj next)) in
    let* sel := res_map (fun row => select_columns row cols) trj_tmp in
    let idx := map (fun row => f_scalar_index row scalar) sel in
    let* b := bincount idx (Z.to_nat (last scalar 0%Z)) in
    let* mats := reshape_mats c b in
    let* m := broadcast_rows k mats in
    let raveled := concat (map (@concat Z) m) in
    let zeroed := assign_at raveled (map (fun i => (i, 0%Z)) (diag_indices k c)) in
    let* rows := reshape_rows c zeroed in
    let sums := map Zsum rows in
    reshape_mats c (assign_at zeroed (combine (diag_indices k c) sums)).

(** conditional_intensity_matrix.py:17-33 with float64 entries *)
Record fcim := MkFcim { fc_times : list f64; fc_trans : list (list Z); fc_cim : list (list f64) }.
Definition f_negate_diagonal (a : list (list f64)) : list (list f64) :=
  mapi (fun i row => mapi (fun j v => if i =? j then Bopp v else v) row) a.
Definition f_compute_cim_coefficients (t : list f64) (m : list (list Z)) : fcim :=
  MkFcim t m (map (fun rt => map (fun v => fdiv (fadd v f_one) (fadd (snd rt) f_one)) (fst rt))
                  (combine (f_negate_diagonal (map (map f_of_Z) m)) t)).

(** set_of_cims.py:58-73 *)
Definition f_build_cims (ts : list (list f64)) (ms : list (list (list Z))) : list fcim :=
  map (fun tm => f_compute_cim_coefficients (fst tm) (snd tm)) (combine ts ms).

(** parameters_estimator.py:31-63.  [times]: the float64 time column of the imported data; the other columns
    (integers) are those of [t]. *)
Definition f_compute_parameters_for_node (times : list f64) (t : trajectory) (g : netgraph) (n : label)
  : result (set_of_cims fcim) :=
  let* pinfo := opt_get (ng_pinfo g) in
  let p_vals := snd pinfo in
  let* c := ng_get_states_number g n in
  let* p_combs := opt_get (ng_p_combs g) in
  let k := nat_prod p_vals in
  let* node_indx := ng_get_node_indx g n in
  let* tf := opt_get (ng_time_filtering g) in
  let* ti := opt_get (ng_time_indexing g) in
  let* T := f_compute_state_res_time_for_node times (traj_trajectory t) tf ti k c in
  let* mf := opt_get (ng_trans_filtering g) in
  let* mi := opt_get (ng_trans_indexing g) in
  let* M := f_compute_state_transitions_for_a_node node_indx (traj_complete t) (t_width t) mf mi k c in
  Ok (MkSetOfCims p_combs (f_build_cims T M)).
