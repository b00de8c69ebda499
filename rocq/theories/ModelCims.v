(** Model of PyCTBN/PyCTBN/structure_graph/conditional_intensity_matrix.py and set_of_cims.py.
    float64 values are exact rationals ([Qc]); counts are integers ([Z]). *)
From Coq Require Export QArith Qcanon.
From Verif Require Import Base.
Open Scope nat_scope.

Definition Qc_of_Z (z : Z) : Qc := Q2Qc (inject_Z z).
Definition Qcsum (l : list Qc) : Qc := fold_right Qcplus 0%Qc l.

(** conditional_intensity_matrix.py:17-26 *)
Record cim := MkCim {
  c_times : list Qc;            (* _state_residence_times *)
  c_trans : list (list Z);      (* _state_transition_matrix *)
  c_cim : list (list Qc) }.     (* _cim *)

(** conditional_intensity_matrix.py:17-26 with cim=None: _cim is a float copy of the counts *)
Definition new_cim (t : list Qc) (m : list (list Z)) : cim :=
  MkCim t m (map (map Qc_of_Z) m).

(** np.fill_diagonal(a, a.diagonal() * -1), conditional_intensity_matrix.py:32 *)
Definition negate_diagonal (a : list (list Qc)) : list (list Qc) :=
  mapi (fun i row => mapi (fun j v => if i =? j then (- v)%Qc else v) row) a.

(** ((cim.T + 1) / (times + 1)).T, conditional_intensity_matrix.py:33: row i is divided by
    times[i] + 1 (numpy would raise for a length mismatch; the matrix always has as many rows as
    times entries when it comes from build_cims) *)
Definition compute_cim_coefficients (c : cim) : cim :=
  MkCim (c_times c) (c_trans c)
        (map (fun rt => map (fun v => ((v + 1) / (snd rt + 1))%Qc) (fst rt))
             (combine (negate_diagonal (c_cim c)) (c_times c))).

(** set_of_cims.py:29-44.  Polymorphic in the CIM object so that it also serves the generator,
    whose CIMs carry only a matrix.  The temporary statistics matrices live in the estimator model. *)
Record set_of_cims (C : Type) := MkSetOfCims {
  so_p_combs : list (list nat);
  so_actual_cims : list C }.
Arguments MkSetOfCims {C}. Arguments so_p_combs {C}. Arguments so_actual_cims {C}.

(** set_of_cims.py:58-73 *)
Definition build_cims (ts : list (list Qc)) (ms : list (list (list Z))) : list cim :=
  map (fun tm => compute_cim_coefficients (new_cim (fst tm) (snd tm))) (combine ts ms).

(** boolean column mask [row[mask]]: entries of row at the True positions *)
Definition mask_row {A} (mask : list bool) (row : list A) : list A :=
  map snd (filter fst (combine mask row)).

Fixpoint nat_list_eqb (a b : list nat) : bool :=
  match a, b with
  | [], [] => true
  | x :: a', y :: b' => (x =? y) && nat_list_eqb a' b'
  | _, _ => false
  end.

(** set_of_cims.py:75-90: [np.argwhere(np.all(p_combs[:, mask] == comb, axis=1)).ravel()] then
    fancy indexing of actual_cims.  Indexing past the end raises IndexError. *)
Definition filter_indices (p_combs : list (list nat)) (mask : list bool) (comb : list nat) : list nat :=
  map fst (filter (fun ir => nat_list_eqb (mask_row mask (snd ir)) comb)
                  (combine (seq 0 (length p_combs)) p_combs)).
Definition filter_cims_with_mask {C} (s : set_of_cims C) (mask : list bool) (comb : list nat)
  : result (list C) :=
  if length mask <=? 1 then Ok (so_actual_cims s)
  else res_map (nth_res (so_actual_cims s)) (filter_indices (so_p_combs s) mask comb).

(** set_of_cims.py:100-101 *)
Definition get_cims_number {C} (s : set_of_cims C) : nat := length (so_actual_cims s).
