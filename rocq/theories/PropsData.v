(** Property theorems C16 and C42-C46. *)
From Verif Require Import Base ModelStructure ModelGraph ModelCims ModelData ModelParams
  SpecStructure SpecGraph SpecComb SpecParams SpecData ProofData ProofData2 ProofData3.

Definition dvars := ["X";"Y"].
Definition dr1 : raw := [(0%Qc, [0;0]%Z); (Q2Qc (1#2), [1;0]%Z); (Q2Qc 2, [1;1]%Z); (Q2Qc 3, [-1;-1]%Z)].
Definition dr2 : raw := [(0%Qc, [1;0]%Z); (Q2Qc (1#4), [0;0]%Z)].
Example d_header : good_header dvars.
Proof. unfold good_header. cbn. repeat constructor; cbn; intuition discriminate. Qed.
Example d_raw_ok : Forall (raw_ok [2;2]) [dr1; dr2].
Proof.
  apply Forall_cons; [split|apply Forall_cons; [split|apply Forall_nil]].
  all: intros o H; cbn in H; repeat (destruct H as [<-|H]; [first [reflexivity|split; cbn; repeat constructor; lia]|]); contradiction.
Qed.

(** C16 *)
Theorem C16_end_to_end vars cards prior rs : good_header vars -> vars <> [] -> length cards = length vars ->
  Forall (raw_ok cards) rs -> (exists r, In r rs /\ 2 <= length r) ->
  edges_within vars (match prior with None => [] | Some es => es end) ->
  exists im sp sp1 sp2 s t,
    sample_import_data (new_sample_importer (map (frame_of vars) rs) (Some (variables_frame vars cards)) prior) None = Ok im
    /\ new_sample_path im = Ok sp /\ sp_build_trajectories sp = Ok sp1 /\ sp_build_structure sp1 = Ok sp2
    /\ sp_structure sp2 = Some s /\ sp_trajectories sp2 = Some t
    /\ nodes_labels s = vars /\ nodes_values s = cards /\ nodes_indexes s = seq 0 (length vars)
    /\ edges_list s = match prior with None => [] | Some es => es end
    /\ forall es v c ni pis ps, edges_within vars es -> node_view s (es ++ edges_list s) v c ni pis ps -> 0 < c -> compat c ps ->
       exists g soc, ng_fast_init (fresh_graph s es) v = Ok g /\ compute_parameters_for_node t g v = Ok soc
        /\ length (so_actual_cims soc) = nat_prod ps /\ length (so_p_combs soc) = nat_prod ps
        /\ ((forall p, In p ps -> p = c) -> forall u, config_ok ps u -> nth_error (so_p_combs soc) (config_rank ps u) = Some u)
        /\ forall u x, config_ok ps u -> x < c ->
            exists cm, nth_error (so_actual_cims soc) (config_rank ps u) = Some cm
              /\ nth_error (c_times cm) x = Some (raw_dwell rs (ni :: pis) (x :: u))
              /\ exists row, nth_error (c_trans cm) x = Some row /\ length row = c
                 /\ (forall x', x' < c -> x' <> x -> nth_error row x' = Some (raw_jumps rs ni x' (ni :: pis) (x :: u)))
                 /\ nth_error row x = Some (Zsum (map (fun x' => if x' =? x then 0%Z else raw_jumps rs ni x' (ni :: pis) (x :: u)) (seq 0 c)))
                 /\ exists qrow, nth_error (c_cim cm) x = Some qrow
                    /\ forall x' z, nth_error row x' = Some z -> nth_error qrow x' =
                         Some (if x =? x' then (1 - Qc_of_Z z) / (raw_dwell rs (ni :: pis) (x :: u) + 1)
                               else (Qc_of_Z z + 1) / (raw_dwell rs (ni :: pis) (x :: u) + 1))%Qc.
Proof. exact (end_to_end vars cards prior rs). Qed.
Print Assumptions C16_end_to_end.
(** the data of two trajectories, one closed by the -1 terminator *)
Example C16_case : good_header dvars /\ Forall (raw_ok [2;2]) [dr1; dr2] /\ (exists r, In r [dr1; dr2] /\ 2 <= length r)
  /\ raw_dwell [dr1; dr2] [0;1] [1;0] = Q2Qc (7#4) /\ raw_jumps [dr1; dr2] 0 1 [0;1] [0;0] = 1%Z
  /\ exists im sp sp1, sample_import_data (new_sample_importer (map (frame_of dvars) [dr1; dr2]) (Some (variables_frame dvars [2;2])) None) None = Ok im
     /\ new_sample_path im = Ok sp /\ sp_build_trajectories sp = Ok sp1
     /\ match sp_trajectories sp1 with Some t => t_rows t = [[0;0;1;0];[1;0;1;1];[1;1;-1;-1];[1;0;0;0]]%Z | None => False end.
Proof.
  split; [apply d_header|]. split; [apply d_raw_ok|]. split; [exists dr1; split; [left; reflexivity|cbn; lia]|].
  split; [apply Qc_is_canon; vm_compute; reflexivity|]. split; [vm_compute; reflexivity|].
  do 3 eexists. split; [vm_compute; reflexivity|]. split; [vm_compute; reflexivity|]. split; vm_compute; reflexivity.
Qed.

(** C42 *)
Theorem C42_row_delta vars n f : raw_frame vars n f -> good_header vars ->
  exists f', compute_row_delta_single_samples_frame f vars (shifted_names vars) = Ok f'
   /\ nrows f' = n - 1 /\ col_names f' = "Time" :: vars ++ shifted_names vars
   /\ forall i, S i < n ->
      (forall t t', cell_at f "Time" i = Some (Some t) -> cell_at f "Time" (S i) = Some (Some t') ->
         cell_at f' "Time" i = Some (Some (t' - t)%Qc))
      /\ (forall v, In v vars -> cell_at f' v i = cell_at f v i
                               /\ cell_at f' (String.append v "S") i = cell_at f v (S i)).
Proof. exact (row_delta vars n f). Qed.
Print Assumptions C42_row_delta.
Example C42_case : raw_frame dvars 4 (frame_of dvars dr1).
Proof.
  apply (frame_of_raw dvars dr1); [repeat constructor; cbn; intuition discriminate|].
  intros o H. cbn in H. repeat destruct H as [<-|H]; reflexivity || contradiction.
Qed.

(** C43 *)
Theorem C43_concatenation im vars fs ns : im_sorter im = Some vars -> vars <> [] -> good_header vars -> fs <> [] ->
  Forall2 (fun f n => raw_frame vars n f) fs ns ->
  exists im' cf, compute_row_delta_in_all_samples_frames im fs = Ok im' /\ im_concat im' = CFrame cf
   /\ im_samples im' = im_samples im /\ im_variables im' = im_variables im /\ im_structure im' = im_structure im /\ im_sorter im' = im_sorter im
   /\ col_names cf = "Time" :: vars ++ shifted_names vars
   /\ nrows cf = nat_sum (map (fun n => n - 1) ns)
   /\ (forall k f n i, nth_error fs k = Some f -> nth_error ns k = Some n -> S i < n ->
        let r := nat_sum (firstn k (map (fun n => n - 1) ns)) + i in
        (forall t t', cell_at f "Time" i = Some (Some t) -> cell_at f "Time" (S i) = Some (Some t') ->
           cell_at cf "Time" r = Some (Some (t' - t)%Qc))
        /\ (forall v, In v vars -> cell_at cf v r = cell_at f v i
                                 /\ cell_at cf (String.append v "S") r = cell_at f v (S i)))
   /\ exists ds, assoc_col (fr_cols cf) "Time" = Some (map Some ds)
        /\ Qcsum ds = Qcsum (map (fun fn => frame_duration (snd fn) (fst fn)) (combine fs ns)).
Proof. exact (all_frames im vars fs ns). Qed.
Print Assumptions C43_concatenation.
Example C43_case : exists im' cf,
  compute_row_delta_in_all_samples_frames (MkImporter [] CEmptyList None None (Some dvars)) [frame_of dvars dr1; frame_of dvars dr2] = Ok im'
  /\ im_concat im' = CFrame cf /\ nrows cf = 4
  /\ frame_duration 4 (frame_of dvars dr1) = Q2Qc 3 /\ cell_at cf "XS" 3 = Some (Some 0%Qc) /\ cell_at cf "XS" 2 = Some (Some (Qc_of_Z (-1))).
Proof. do 2 eexists. split; [vm_compute; reflexivity|]. split; [reflexivity|]. repeat split; try (apply Qc_is_canon); vm_compute; reflexivity. Qed.

(** C44; a time column with another name: PropsDocument *)
(** the first column is the one that is differenced, whatever it is called *)
Theorem C44_first_column_differenced n x c0 rest header f' :
  length c0 = n -> Forall (fun nc => length (snd nc) = n) rest -> NoDup header -> x <> "Time" ->
  ~ In x (shifted_names header) -> ~ In "Time" (shifted_names header) ->
  compute_row_delta_single_samples_frame (MkFrame (map Z.of_nat (seq 0 n)) ((x, c0) :: rest)) header (shifted_names header) = Ok f' ->
  assoc_col (fr_cols f') x = Some (firstn (n - 1) (diff_shift c0))
  /\ assoc_col (fr_cols f') "Time" = option_map (firstn (n - 1)) (assoc_col rest "Time").
Proof. exact (first_column_differenced n x c0 rest header f'). Qed.
Print Assumptions C44_first_column_differenced.
(** a variable called like another one plus "S": its column is replaced by the other's next states *)
Theorem C44_shifted_column_overwrites vars n f f' v w : raw_frame vars n f -> NoDup ("Time" :: vars) -> In v vars -> In w vars ->
  w = String.append v "S" ->
  compute_row_delta_single_samples_frame f vars (shifted_names vars) = Ok f' ->
  forall i, S i < n -> cell_at f' w i = cell_at f v (S i).
Proof. exact (shifted_overwrites vars n f f' v w). Qed.
Print Assumptions C44_shifted_column_overwrites.
Example C44_case_overwrite : exists f', let f := frame_of ["X";"XS"] [(0%Qc,[0;1]%Z); (1%Qc,[0;1]%Z)] in
  compute_row_delta_single_samples_frame f ["X";"XS"] (shifted_names ["X";"XS"]) = Ok f'
  /\ cell_at f "XS" 0 = Some (Some 1%Qc) /\ cell_at f' "XS" 0 = Some (Some 0%Qc).
Proof. eexists. split; [vm_compute; reflexivity|]. split; vm_compute; reflexivity. Qed.

(** C45 *)
Theorem C45_accepts_iff im :
  (sample_path_accepts im /\ new_sample_path im = Ok (MkSamplePath im None None None))
  \/ (~ sample_path_accepts im /\ new_sample_path im = Err RuntimeError).
Proof. exact (new_sample_path_iff im). Qed.
Print Assumptions C45_accepts_iff.
Theorem C45_trajectories_consumed sp sp1 : sp_build_trajectories sp = Ok sp1 ->
  new_sample_path (sp_importer sp1) = Err RuntimeError
  /\ exists f, im_concat (sp_importer sp1) = CFrame f /\ fr_index f = []
  /\ exists sp2 t, sp_build_trajectories sp1 = Ok sp2 /\ sp_trajectories sp2 = Some t /\ t_rows t = [] /\ t_times t = [].
Proof. exact (build_trajectories_once sp sp1). Qed.
Print Assumptions C45_trajectories_consumed.
Theorem C45_not_imported_accepted_refuted fs v s : vframe_empty v = false ->
  exists sp, new_sample_path (new_sample_importer fs (Some v) s) = Ok sp /\ sp_build_trajectories sp = Err AttributeError.
Proof. exact (not_imported fs v s). Qed.
Print Assumptions C45_not_imported_accepted_refuted.
Example C45_case : exists im sp sp1, sample_import_data (new_sample_importer [frame_of dvars dr1] (Some (variables_frame dvars [2;2])) None) None = Ok im
  /\ new_sample_path im = Ok sp /\ sp_build_trajectories sp = Ok sp1 /\ new_sample_path (sp_importer sp1) = Err RuntimeError.
Proof. do 3 eexists. split; [vm_compute; reflexivity|]. split; [vm_compute; reflexivity|]. split; vm_compute; reflexivity. Qed.

(** C46 *)
Theorem C46_build_structure sp v sorter : im_variables (sp_importer sp) = Some v -> im_sorter (sp_importer sp) = Some sorter ->
  (sorter <> v_names v /\ sp_build_structure sp = Err RuntimeError)
  \/ (sorter = v_names v /\ exists sp' s, sp_build_structure sp = Ok sp' /\ sp_structure sp' = Some s
      /\ sp_importer sp' = sp_importer sp /\ sp_trajectories sp' = sp_trajectories sp
      /\ combine (combine (nodes_indexes s) (nodes_labels s)) (nodes_values s) = v_rows v
      /\ nodes_labels s = sorter
      /\ edges_list s = match im_structure (sp_importer sp) with None => [] | Some es => es end
      /\ total_variables_number s = length sorter).
Proof. exact (build_structure_spec sp v sorter). Qed.
Print Assumptions C46_build_structure.
Example C46_case : forall im, im_variables im = Some (variables_frame ["Y";"X"] [2;2]) -> im_sorter im = Some ["X";"Y"] ->
  sp_build_structure (MkSamplePath im None None None) = Err RuntimeError.
Proof. intros im H1 H2. unfold sp_build_structure; cbn [sp_importer]. rewrite H1, H2. reflexivity. Qed.
