(** Model of the data path: utility/abstract_importer.py, sample_importer.py, json_importer.py,
    structure_graph/trajectory.py, sample_path.py.  pandas DataFrames are lists of named columns
    with an explicit row index. *)
From Verif Require Import Base ModelStructure ModelCims.

(** A cell of a DataFrame: [None] is NaN. *)
Notation cell := (option Qc) (only parsing).

(** A DataFrame.  Simplification: column names are distinct (look-up takes the first). *)
Record frame := MkFrame { fr_index : list Z; fr_cols : list (label * list cell) }.

Definition col_names (f : frame) : list label := map fst (fr_cols f).
Fixpoint assoc_col {A} (cs : list (label * A)) (n : label) : option A :=
  match cs with
  | [] => None
  | (x, c) :: r => if String.eqb x n then Some c else assoc_col r n
  end.

Definition cell_sub (a b : cell) : cell :=
  match a, b with Some x, Some y => Some (x - y)%Qc | _, _ => None end.

(** Series.diff().shift(-1): entry i is v[i+1]-v[i], the last is NaN *)
Fixpoint diff_shift (l : list cell) : list cell :=
  match l with
  | [] => []
  | a :: r => match r with
              | [] => [None]
              | b :: _ => cell_sub b a :: diff_shift r
              end
  end.

(** Series.shift(-1): the last is NaN *)
Definition shift_up (l : list cell) : list cell :=
  match l with [] => [] | _ :: r => r ++ [None] end.

(** truncation toward zero, as astype(int) *)
Definition Qc_trunc (q : Qc) : Z := Z.quot (Qnum q) (Zpos (Qden q)).

(** fillna(0).astype('int32').  Simplification: no 32-bit wrap-around. *)
Definition fillna0_int (c : cell) : cell :=
  match c with None => Some 0%Qc | Some q => Some (Qc_of_Z (Qc_trunc q)) end.

(** DataFrame.assign: replaces an existing column in place, otherwise appends it *)
Fixpoint assign_col (cs : list (label * list cell)) (n : label) (v : list cell)
  : list (label * list cell) :=
  match cs with
  | [] => [(n, v)]
  | (x, c) :: r => if String.eqb x n then (x, v) :: r else (x, c) :: assign_col r n v
  end.

(** df[header]: KeyError for a missing column *)
Definition select_cols (cs : list (label * list cell)) (header : list label)
  : result (list (list cell)) :=
  res_map (fun h => match assoc_col cs h with Some c => Ok c | None => Err KeyError end) header.

(** rows of a column whose index label is kept *)
Definition keep_rows {A} (keep : list bool) (c : list A) : list A :=
  map snd (filter fst (combine keep c)).

(** frame.drop(frame.tail(1).index): drops every row that carries the last row's index label *)
Definition drop_tail (f : frame) : frame :=
  match rev (fr_index f) with
  | [] => f
  | z :: _ =>
      let keep := map (fun i => negb (Z.eqb i z)) (fr_index f) in
      MkFrame (keep_rows keep (fr_index f))
              (map (fun nc => (fst nc, keep_rows keep (snd nc))) (fr_cols f))
  end.

(** abstract_importer.py:64-89 *)
Definition compute_row_delta_single_samples_frame (f : frame) (columns_header shifted_header : list label)
  : result frame :=
  match fr_cols f with
  | [] => Err IndexError                                    (* iloc[:, 0] *)
  | (t0, c0) :: rest =>
      let cs1 := (t0, diff_shift c0) :: rest in             (* line 84 *)
      let* sel := select_cols cs1 columns_header in         (* line 85 *)
      let shifted := map (fun c => map fillna0_int (shift_up c)) sel in
      let cs2 := fold_left (fun cs nv => assign_col cs (fst nv) (snd nv))
                           (combine shifted_header shifted) cs1 in   (* lines 86-87 *)
      Ok (drop_tail (MkFrame (fr_index f) cs2))             (* line 88 *)
  end.

(** pd.concat(frames)[header]: columns are aligned by name; a column present in no frame is a
    KeyError, a column missing from some frames is NaN there; no frames: ValueError *)
Definition concat_select (fs : list frame) (header : list label) : result frame :=
  match fs with
  | [] => Err ValueError
  | _ =>
    let* cols := res_map (fun h =>
        if existsb (fun f => lmem h (col_names f)) fs
        then Ok (h, flat_map (fun f => match assoc_col (fr_cols f) h with
                                       | Some c => c
                                       | None => map (fun _ => None) (fr_index f) end) fs)
        else Err KeyError) header in
    Ok (MkFrame (flat_map fr_index fs) cols)
  end.

(** The [_concatenated_samples] member: initially the empty list, later a DataFrame; a user may
    also have stored None or a numpy array (sample_path.py:32-41). *)
Inductive concat_state := CEmptyList | CNone | CFrame (f : frame) | CArray (size : nat).

(** variables DataFrame: row index, column 0 (labels), column 1 (cardinalities) *)
Record vframe := MkVframe { v_rows : list (nat * label * nat) }.
Definition v_index (v : vframe) := map (fun r => fst (fst r)) (v_rows v).
Definition v_names (v : vframe) := map (fun r => snd (fst r)) (v_rows v).
Definition v_values (v : vframe) := map (fun r => snd r) (v_rows v).

(** abstract_importer.py:40-50 *)
Record importer := MkImporter {
  im_samples : list frame;
  im_concat : concat_state;
  im_variables : option vframe;
  im_structure : option (list edge);
  im_sorter : option (list label) }.

Definition shifted_names (sorter : list label) : list label := map (fun s => String.append s "S") sorter.

(** abstract_importer.py:91-118 *)
Definition compute_row_delta_in_all_samples_frames (im : importer) (fs : list frame) : result importer :=
  match im_sorter im with
  | None | Some [] => Err RuntimeError
  | Some sorter =>
      let sh := shifted_names sorter in
      let* procs := res_map (fun f => compute_row_delta_single_samples_frame f sorter sh) fs in
      let* c := concat_select procs ("Time" :: sorter ++ sh) in
      Ok (MkImporter (im_samples im) (CFrame c) (im_variables im) (im_structure im) (im_sorter im))
  end.

Definition with_sorter (im : importer) (s : list label) : importer :=
  MkImporter (im_samples im) (im_concat im) (im_variables im) (im_structure im) (Some s).

(** sample_importer.py:56-61 *)
Definition sample_build_sorter (f : frame) : result (list label) :=
  match col_names f with [] => Err IndexError | _ :: r => Ok r end.

(** sample_importer.py:30-43 *)
Definition new_sample_importer (fs : list frame) (v : option vframe) (s : option (list edge)) : importer :=
  MkImporter fs CEmptyList v s None.

(** sample_importer.py:45-54 *)
Definition sample_import_data (im : importer) (header_column : option (list label)) : result importer :=
  let* im1 := match header_column with
              | Some h => Ok (with_sorter im h)
              | None => let* f := nth_res (im_samples im) 0 in
                        let* s := sample_build_sorter f in Ok (with_sorter im s)
              end in
  compute_row_delta_in_all_samples_frames im1 (im_samples im1).

(** json_importer.py:150-155: list.remove(time_key) *)
Definition json_build_sorter (time_key : label) (f : frame) : result (list label) :=
  py_remove String.eqb time_key (col_names f).

(** iloc[0:0] *)
Definition empty_frame_like (f : frame) : frame :=
  MkFrame [] (map (fun nc => (fst nc, [])) (fr_cols f)).

(** trajectory.py:22-27.  [t_rows] is the complete transition matrix, [t_width] its number of
    columns, [t_orig] is original_cols_number. *)
Record trajectory := MkTrajectory {
  t_times : list Qc; t_rows : list (list Z); t_width : nat; t_orig : nat }.

(** trajectory.py:29-31: _actual_trajectory[:, :original_cols_number - 1] (original_cols_number >= 1) *)
Definition traj_trajectory (t : trajectory) : list (list Z) := map (firstn (t_orig t - 1)) (t_rows t).
(** trajectory.py:33-35, 41-42 *)
Definition traj_complete (t : trajectory) : list (list Z) := t_rows t.
Definition traj_size (t : trajectory) : nat := length (t_rows t).

(** DataFrame.to_numpy(): row i of the matrix.  Simplification: a NaN cell (which the importers
    never leave in a processed frame) is a ValueError. *)
Definition frame_row (f : frame) (i : nat) : result (list Qc) :=
  res_map (fun nc => match nth_error (snd nc) i with
                     | Some (Some q) => Ok q | _ => Err ValueError end) (fr_cols f).
Definition to_numpy (f : frame) : result (list (list Qc)) :=
  res_map (frame_row f) (seq 0 (length (fr_index f))).

(** abstract_importer.py:120-133: first column, and the remaining columns .astype(int) *)
Definition build_list_of_samples_array (f : frame) : result (list Qc * list (list Z)) :=
  let* a := to_numpy f in
  let* times := res_map (fun r => nth_res r 0) a in
  Ok (times, map (fun r => map Qc_trunc (tl r)) a).

(** abstract_importer.py:135-139 *)
Definition clear_concatenated_frame (im : importer) : importer :=
  match im_concat im with
  | CFrame f => MkImporter (im_samples im) (CFrame (empty_frame_like f)) (im_variables im)
                           (im_structure im) (im_sorter im)
  | _ => im
  end.

(** sample_path.py *)
Record sample_path := MkSamplePath {
  sp_importer : importer;
  sp_trajectories : option trajectory;
  sp_structure : option structure;
  sp_total : option nat }.

(** DataFrame.empty: no rows or no columns *)
Definition frame_empty (f : frame) : bool :=
  match fr_index f, fr_cols f with [], _ => true | _, [] => true | _, _ => false end.
Definition vframe_empty (v : vframe) : bool := match v_rows v with [] => true | _ => false end.

(** sample_path.py:28-44 *)
Definition new_sample_path (im : importer) : result sample_path :=
  match im_variables im, im_concat im with
  | None, _ => Err RuntimeError
  | _, CNone => Err RuntimeError
  | Some v, c =>
      if vframe_empty v then Err RuntimeError
      else match c with
           | CFrame f => if frame_empty f then Err RuntimeError else Ok (MkSamplePath im None None None)
           | CArray 0 => Err RuntimeError
           | _ => Ok (MkSamplePath im None None None)
           end
  end.

(** sample_path.py:46-53.  list and ndarray have no to_numpy(): AttributeError;
    len(None): TypeError *)
Definition sp_build_trajectories (sp : sample_path) : result sample_path :=
  let im := sp_importer sp in
  match im_concat im with
  | CFrame f =>
      let* ta := build_list_of_samples_array f in
      match im_sorter im with
      | None => Err TypeError
      | Some s =>
          Ok (MkSamplePath (clear_concatenated_frame im)
                (Some (MkTrajectory (fst ta) (snd ta) (length (fr_cols f) - 1) (length s + 1)))
                (sp_structure sp) (sp_total sp))
      end
  | _ => Err AttributeError
  end.

(** sample_path.py:55-71.  Comparing the label lists also fails (RuntimeError) when the sorter is
    None. *)
Definition sp_build_structure (sp : sample_path) : result sample_path :=
  let im := sp_importer sp in
  match im_variables im with
  | None => Err AttributeError
  | Some v =>
      match im_sorter im with
      | None => Err RuntimeError
      | Some sorter =>
          if negb (list_eqb String.eqb sorter (v_names v)) then Err RuntimeError
          else
            let total := length sorter in
            let edges := match im_structure im with None => [] | Some es => es end in
            Ok (MkSamplePath im (sp_trajectories sp)
                  (Some (MkStructure (v_names v) (v_index v) (v_values v) edges total))
                  (Some total))
      end
  end.

(** sample_path.py:88-90 *)
Definition has_prior_net_structure (sp : sample_path) : result bool :=
  match sp_structure sp with
  | None => Err AttributeError
  | Some s => Ok (match edges_list s with [] => false | _ => true end)
  end.
